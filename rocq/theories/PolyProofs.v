(** Polynomials: evaluation, derivative, shift and blueprints. *)
From Verif Require Import RBase PolyModel PascalProofs.
Open Scope R_scope.

(** * Evaluation *)

Fixpoint horner (p : list R) (x : R) : R := match p with [] => 0 | c :: q => c + x * horner q x end.

Lemma eval_loop_horner cs x : forall tmp v, eval_loop cs x tmp v = v + tmp * horner cs x.
Proof. induction cs as [|c cs IH]; intros tmp v; cbn [eval_loop horner]; [lra|]. rewrite IH. lra. Qed.
Lemma eval_horner p x : eval p x = horner p x.
Proof. destruct p as [|c cs]; [reflexivity|]. cbn [eval horner]. apply eval_loop_horner. Qed.

(** The sum of a_i x^i. *)
Definition poly_sum (p : list R) (x : R) : R := sum_f_R0 (fun i => nth i p 0 * x ^ i) (length p - 1).

Lemma horner_sum p x : p <> [] -> horner p x = poly_sum p x.
Proof.
  induction p as [|c p IH]; intros N; [congruence|]. destruct p as [|d p]; [unfold poly_sum; cbn; lra|].
  cbn [horner] in *. rewrite IH by discriminate. unfold poly_sum. cbn [length]. rewrite !Nat.sub_succ, !Nat.sub_0_r.
  rewrite (decomp_sum (fun i => nth i (c :: d :: p) 0 * x ^ i)) by lia. cbn [nth pow Init.Nat.pred]. rewrite Rmult_1_r. f_equal.
  rewrite scal_sum. apply sum_eq. intros i _. ring.
Qed.

(** * Derivative *)

Lemma deriv_loop_next cs x : forall i, horner (deriv_loop (i + 1) cs) x = horner (deriv_loop i cs) x + horner cs x.
Proof.
  induction cs as [|c cs IH]; intros i; cbn [deriv_loop horner]; [lra|]. rewrite IH, !plus_IZR. lra.
Qed.

Lemma horner_deriv p x : derivable_pt_lim (horner p) x (horner (deriv p) x).
Proof.
  destruct p as [|c p]; [apply derivable_pt_lim_const|]. revert c. induction p as [|d p IH]; intros c.
  - cbn [deriv horner]. assert (E : 0 + x * 0 = 0 + (1 * 0 + x * 0)) by lra. rewrite E.
    apply (derivable_pt_lim_plus (fun _ => c) (fun y => y * 0)); [apply derivable_pt_lim_const|].
    apply (derivable_pt_lim_mult id (fun _ => 0)); [apply derivable_pt_lim_id|apply derivable_pt_lim_const].
  - specialize (IH d). cbn [deriv deriv_loop]. set (q := d :: p) in *.
    assert (E : horner (IZR (0 + 1) * d :: deriv_loop (0 + 1) p) x = 0 + (1 * horner q x + x * horner (deriv q) x)).
    { cbn [horner]. rewrite deriv_loop_next. unfold q at 1. cbn [horner].
      destruct p as [|e p]; unfold q; cbn [deriv deriv_loop horner]; rewrite Z.add_0_l; ring. }
    rewrite E. change (horner (c :: q)) with (fun y => c + y * horner q y).
    apply (derivable_pt_lim_plus (fun _ => c) (fun y => y * horner q y)); [apply derivable_pt_lim_const|].
    apply (derivable_pt_lim_mult id (horner q)); [apply derivable_pt_lim_id|auto].
Qed.

Lemma deriv_len p : p <> [] -> Zlen (deriv p) = Z.max 1 (Zlen p - 1).
Proof.
  destruct p as [|c [|d p]]; intros N; [congruence|reflexivity|]. cbn [deriv].
  assert (L : forall cs i, Zlen (deriv_loop i cs) = Zlen cs).
  { induction cs as [|e cs IH]; intros i; cbn [deriv_loop]; [reflexivity|]. rewrite !Zlen_cons, IH. lia. }
  rewrite L, !Zlen_cons. pose proof (Zlen_nonneg p). lia.
Qed.

(** * Shift *)

(** p(x - s) by recursion on the coefficients. *)
Fixpoint addp (p q : list R) : list R :=
  match p, q with
  | [], _ => q
  | _, [] => p
  | a :: p', b :: q' => (a + b) :: addp p' q'
  end.
Fixpoint taylor (s : R) (p : list R) : list R :=
  match p with [] => [] | a :: q => let t := taylor s q in addp (a :: t) (map (Rmult (- s)) t) end.

Lemma horner_addp p x : forall q, horner (addp p q) x = horner p x + horner q x.
Proof. induction p as [|a p IH]; intros [|b q]; cbn [addp horner]; try lra. rewrite IH. lra. Qed.
Lemma horner_scale a p x : horner (map (Rmult a) p) x = a * horner p x.
Proof. induction p as [|c p IH]; cbn [map horner]; [lra|]. rewrite IH. lra. Qed.
Lemma horner_taylor s p x : horner (taylor s p) x = horner p (x - s).
Proof.
  induction p as [|a p IH]; [reflexivity|]. cbn [taylor]. rewrite horner_addp, horner_scale. cbn [horner]. rewrite IH. lra.
Qed.
Lemma addp_len p : forall q, (length q <= length p)%nat -> length (addp p q) = length p.
Proof. induction p as [|a p IH]; intros [|b q] L; cbn in *; try lia. rewrite IH; lia. Qed.
Lemma taylor_len s p : length (taylor s p) = length p.
Proof. induction p as [|a p IH]; [reflexivity|]. cbn [taylor]. rewrite addp_len; cbn [length]; rewrite ?map_length; lia. Qed.
Lemma addp_nth p : forall q i, nth i (addp p q) 0 = nth i p 0 + nth i q 0.
Proof.
  induction p as [|a p IH]; intros [|b q] [|i]; cbn [addp nth]; try lra. apply IH.
Qed.
Lemma scale_nth a p i : nth i (map (Rmult a) p) 0 = a * nth i p 0.
Proof. revert i. induction p as [|c p IH]; intros [|i]; cbn [map nth]; try lra. apply IH. Qed.

(** The sum of bin i k (-s)^k f(i+k) over k0 <= k < k0 + t. *)
Fixpoint ts (i : nat) (s : R) (f : nat -> R) (k0 t : nat) : R :=
  match t with O => 0 | S t' => IZR (bin i k0) * (- s) ^ k0 * f (i + k0)%nat + ts i s f (S k0) t' end.

Lemma ts_S i s f k0 t : ts i s f k0 (S t) = IZR (bin i k0) * (- s) ^ k0 * f (i + k0)%nat + ts i s f (S k0) t.
Proof. reflexivity. Qed.
Lemma ts_ext i s f g : forall t k0, (forall k, f (i + k)%nat = g (i + k)%nat) -> ts i s f k0 t = ts i s g k0 t.
Proof. induction t as [|t IH]; intros k0 E; cbn [ts]; [lra|]. rewrite (IH (S k0)) by auto. now rewrite E. Qed.

Lemma ts_pascal i s p a : forall t k0,
  ts (S i) s (fun j => nth j (a :: p) 0) (S k0) t
  = ts i s (fun j => nth j p 0) (S k0) t + - s * ts (S i) s (fun j => nth j p 0) k0 t.
Proof.
  induction t as [|t IH]; intros k0; [cbn [ts]; lra|]. rewrite !ts_S, IH, bin_SS, plus_IZR.
  replace (S i + S k0)%nat with (S (i + S k0)) by lia. cbn [nth]. replace (S i + k0)%nat with (i + S k0)%nat by lia.
  cbn [pow]. ring.
Qed.

Lemma ts_zero s p a : forall t k0,
  ts 0 s (fun j => nth j (a :: p) 0) (S k0) t = - s * ts 0 s (fun j => nth j p 0) k0 t.
Proof. induction t as [|t IH]; intros k0; [cbn [ts]; lra|]. rewrite !ts_S, IH. cbn [bin Nat.add nth pow]. ring. Qed.

Lemma taylor_nth s p : forall i, nth i (taylor s p) 0 = ts i s (fun j => nth j p 0) 0 (length p - i).
Proof.
  induction p as [|a p IH]; intros i; [now destruct i|].
  cbn [taylor length]. rewrite addp_nth, scale_nth. destruct i as [|i].
  - change (nth 0 (a :: taylor s p) 0) with a. rewrite IH, !Nat.sub_0_r. rewrite ts_S, ts_zero. cbn [bin pow Nat.add nth]. ring.
  - change (nth (S i) (a :: taylor s p) 0) with (nth i (taylor s p) 0). rewrite !IH. cbn [Nat.sub]. destruct (length p - i)%nat as [|t] eqn:E.
    + replace (length p - S i)%nat with O by lia. cbn [ts]. ring.
    + replace (length p - S i)%nat with t by lia. rewrite !ts_S, ts_pascal, !bin_0_r, !Nat.add_0_r. cbn [nth pow]. ring.
Qed.

Lemma zget_nth (l : list R) i : (i < length l)%nat -> zget l (Z.of_nat i) = Some (nth i l 0).
Proof.
  intros L. unfold zget. replace (Z.of_nat i <? 0)%Z with false by lia. rewrite Nat2Z.id. now apply nth_error_nth'.
Qed.
Lemma nth_zset (l : list R) i v j : (i < length l)%nat -> nth j (zset l (Z.of_nat i) v) 0 = if Nat.eq_dec i j then v else nth j l 0.
Proof.
  intros L. destruct (Nat.eq_dec i j) as [<-|N].
  - pose proof (zget_zset_eq l (Z.of_nat i) v ltac:(unfold Zlen; lia)) as G.
    rewrite zget_nth in G by (pose proof (Zlen_zset l (Z.of_nat i) v) as Q; unfold Zlen in Q; lia). congruence.
  - destruct (le_lt_dec (length l) j) as [G|G].
    + rewrite !nth_overflow; auto. pose proof (Zlen_zset l (Z.of_nat i) v) as Q. unfold Zlen in Q. lia.
    + pose proof (zget_zset_neq l (Z.of_nat i) (Z.of_nat j) v ltac:(lia)) as Q. rewrite !zget_nth in Q; auto; [congruence|].
      pose proof (Zlen_zset l (Z.of_nat i) v) as P. unfold Zlen in P. lia.
Qed.
Lemma zset_len (l : list R) i v : length (zset l i v) = length l.
Proof. pose proof (Zlen_zset l i v) as Q. unfold Zlen in Q. lia. Qed.

Lemma shift_row_spec n i s : (i < S n)%nat -> forall todo k0 coeff, (k0 + todo = S n - i)%nat -> (1 <= k0)%nat -> length coeff = S n ->
  exists coeff', shift_row (rows n (S n)) (pascal_begin n i + Z.of_nat k0) todo s ((- s) ^ k0) (Z.of_nat i) (Z.of_nat i + Z.of_nat k0) coeff = FOk coeff'
    /\ length coeff' = S n
    /\ forall j, nth j coeff' 0 = if Nat.eq_dec i j then nth i coeff 0 + ts i s (fun m => nth m coeff 0) k0 todo else nth j coeff 0.
Proof.
  intros I. induction todo as [|todo IH]; intros k0 coeff E K L; cbn [shift_row].
  { exists coeff. repeat split; auto. intros j. cbn [ts]. destruct (Nat.eq_dec i j); [subst; lra|auto]. }
  rewrite (rows_get n (S n) i k0) by lia. rewrite zget_nth by lia.
  replace (Z.of_nat i + Z.of_nat k0)%Z with (Z.of_nat (i + k0)) by lia. rewrite zget_nth by lia.
  set (c1 := zset coeff (Z.of_nat i) _).
  destruct (IH (S k0) c1 ltac:(lia) ltac:(lia)) as (c' & E' & L' & N'); [unfold c1; now rewrite zset_len|].
  replace (pascal_begin n i + Z.of_nat k0 + 1)%Z with (pascal_begin n i + Z.of_nat (S k0))%Z by lia.
  replace (Z.of_nat (i + k0) + 1)%Z with (Z.of_nat i + Z.of_nat (S k0))%Z by lia.
  replace ((- s) ^ k0 * (-1 * s)) with ((- s) ^ S k0) by (cbn [pow]; ring).
  exists c'. split; [exact E'|]. split; auto. intros j. rewrite N'. destruct (Nat.eq_dec i j) as [<-|NE].
  - unfold c1 at 1. rewrite nth_zset by lia. destruct (Nat.eq_dec i i); [|congruence]. cbn [ts].
    assert (X : forall t k, (1 <= k)%nat -> ts i s (fun m => nth m c1 0) k t = ts i s (fun m => nth m coeff 0) k t).
    { induction t as [|t IT]; intros k Kk; cbn [ts]; [lra|]. rewrite IT by lia. f_equal. f_equal. unfold c1. rewrite nth_zset by lia.
      destruct (Nat.eq_dec i (i + k)); [lia|reflexivity]. }
    rewrite X by lia. ring.
  - unfold c1. rewrite nth_zset by lia. destruct (Nat.eq_dec i j); [congruence|reflexivity].
Qed.

Lemma shift_rows_spec n s p : length p = S n -> forall todo i coeff, (i + todo = n)%nat -> length coeff = S n ->
  (forall j, nth j coeff 0 = if lt_dec j i then nth j (taylor s p) 0 else nth j p 0) ->
  exists coeff', shift_rows (rows n (S n)) n i todo s coeff = FOk coeff' /\ coeff' = taylor s p.
Proof.
  intros LP. induction todo as [|todo IH]; intros i coeff E L N; cbn [shift_rows].
  { exists coeff. split; auto. apply nth_ext with (d := 0) (d' := 0); [rewrite taylor_len; lia|].
    intros j J. rewrite N. destruct (lt_dec j i); [reflexivity|]. rewrite taylor_nth, LP. replace j with n by lia.
    replace (S n - n)%nat with 1%nat by lia. cbn [ts]. rewrite bin_0_r, Nat.add_0_r. cbn [pow]. ring. }
  unfold pascal_end. cbn [pascal_begin].
  replace (Z.to_nat _) with (n - i)%nat by lia.
  pose proof (shift_row_spec n i s ltac:(lia) (n - i)%nat 1%nat coeff ltac:(lia) ltac:(lia) L) as (c' & E' & L' & N').
  replace (-1 * s) with ((- s) ^ 1) by (cbn [pow]; ring).
  change (pascal_begin n i + 1)%Z with (pascal_begin n i + Z.of_nat 1)%Z. change (Z.of_nat i + 1)%Z with (Z.of_nat i + Z.of_nat 1)%Z.
  rewrite E'. cbn [fbind]. apply IH; auto; [lia|]. intros j. rewrite N'. destruct (Nat.eq_dec i j) as [<-|NE].
  - destruct (lt_dec i (S i)); [|lia]. rewrite taylor_nth, LP. replace (S n - i)%nat with (S (n - i)) by lia. cbn [ts].
    rewrite bin_0_r, Nat.add_0_r, N. destruct (lt_dec i i); [lia|]. cbn [pow].
    assert (X : forall t k, (1 <= k)%nat -> ts i s (fun m => nth m coeff 0) k t = ts i s (fun m => nth m p 0) k t).
    { induction t as [|t IT]; intros k Kk; cbn [ts]; [lra|]. rewrite IT by lia. f_equal. f_equal. rewrite N. destruct (lt_dec (i + k) i); [lia|auto]. }
    rewrite X by lia. ring.
  - rewrite N. destruct (lt_dec j i), (lt_dec j (S i)); auto; lia.
Qed.

Lemma shift_ok p s : p <> [] -> (length p <= 34)%nat -> shift_horizontal p s = FOk (taylor s p).
Proof.
  intros NP L. destruct p as [|a [|b p]]; [congruence| |].
  - cbn [shift_horizontal taylor]. reflexivity.
  - unfold shift_horizontal. set (q := a :: b :: p) in *. set (n := (length q - 1)%nat).
    assert (LN : length q = S n) by (unfold n, q; cbn [length]; lia).
    rewrite pascal_ok by (unfold n; lia). cbn [lift fbind].
    destruct (shift_rows_spec n s q LN n 0 q ltac:(lia) LN) as (c' & -> & ->); auto.
Qed.

Lemma shift_eval p s : p <> [] -> (length p <= 34)%nat -> exists p', shift_horizontal p s = FOk p' /\ length p' = length p
  /\ forall x, eval p' x = eval p (x - s).
Proof.
  intros N L. exists (taylor s p). split; [now apply shift_ok|]. split; [apply taylor_len|]. intros x. rewrite !eval_horner. apply horner_taylor.
Qed.

(** * Derivatives of shifted polynomials *)

Lemma deriv_shift p p' s : (forall x, eval p' x = eval p (x - s)) -> forall x, eval (deriv p') x = eval (deriv p) (x - s).
Proof.
  intros E x. rewrite !eval_horner. apply (uniqueness_limite (horner p') x); [apply horner_deriv|].
  assert (D : derivable_pt_lim (comp (horner p) (fun y => y - s)) x (horner (deriv p) (x - s) * (1 - 0))).
  { apply derivable_pt_lim_comp; [|apply horner_deriv].
    apply (derivable_pt_lim_minus id (fun _ => s)); [apply derivable_pt_lim_id|apply derivable_pt_lim_const]. }
  replace (horner (deriv p) (x - s) * (1 - 0)) with (horner (deriv p) (x - s)) in D by ring.
  intros eps P. destruct (D eps P) as [d H]. exists d. intros h H1 H2. specialize (H h H1 H2).
  unfold comp in H. rewrite <- !eval_horner in *. rewrite !E. exact H.
Qed.

Lemma shift_nonzero_ok p s : p <> [] -> (length p <= 34)%nat -> exists p', shift_nonzero p s = FOk p' /\ length p' = length p
  /\ (forall x, eval p' x = eval p (x - s)) /\ (forall x, eval (deriv p') x = eval (deriv p) (x - s))
  /\ (forall x, eval (deriv (deriv p')) x = eval (deriv (deriv p)) (x - s)).
Proof.
  intros N L. unfold shift_nonzero. destruct (Req_EM_T s 0) as [->|NZ].
  - exists p. repeat split; auto; intros x; now rewrite Rminus_0_r.
  - destruct (shift_eval p s N L) as (p' & E & LL & H). exists p'. split; auto. split; auto. split; auto.
    pose proof (deriv_shift p p' s H) as H1. split; auto. apply deriv_shift. exact H1.
Qed.
