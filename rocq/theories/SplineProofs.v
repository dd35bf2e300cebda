(** Piecewise functions, and the search for the piece. *)
From Verif Require Import RBase PolyModel SplineModel PolyProofs RootsProofs.
Open Scope R_scope.

(** * Gluing two functions *)

Definition glue (a : R) (g h : R -> R) : R -> R := fun y => if Rle_dec y a then g y else h y.

Lemma glue_l a g h y : y <= a -> glue a g h y = g y.
Proof. intros L. unfold glue. destruct (Rle_dec y a); [reflexivity|lra]. Qed.
Lemma glue_r a g h y : a < y -> glue a g h y = h y.
Proof. intros L. unfold glue. destruct (Rle_dec y a); [lra|reflexivity]. Qed.
Lemma glue_r' a g h y : g a = h a -> a <= y -> glue a g h y = h y.
Proof. intros E L. unfold glue. destruct (Rle_dec y a); [assert (y = a) by lra; subst; auto|reflexivity]. Qed.

Lemma glue_derive a g h g1 h1 : (forall x, derivable_pt_lim g x (g1 x)) -> (forall x, derivable_pt_lim h x (h1 x)) ->
  g a = h a -> g1 a = h1 a -> forall x, derivable_pt_lim (glue a g h) x (glue a g1 h1 x).
Proof.
  intros DG DH E E1 x eps P. destruct (Rtotal_order x a) as [L|[->|G]].
  - destruct (DG x eps P) as [d D]. assert (Q : 0 < Rmin d (a - x)) by (apply Rmin_pos; [apply cond_pos|lra]).
    exists (mkposreal _ Q). intros k K1 K2. cbn in K2. pose proof (Rmin_l d (a - x)). pose proof (Rmin_r d (a - x)).
    pose proof (Rle_abs k). rewrite !glue_l by lra. apply D; auto; lra.
  - destruct (DG a eps P) as [d1 D1]. destruct (DH a eps P) as [d2 D2].
    assert (Q : 0 < Rmin d1 d2) by (apply Rmin_pos; apply cond_pos).
    exists (mkposreal _ Q). intros k K1 K2. cbn in K2. pose proof (Rmin_l d1 d2). pose proof (Rmin_r d1 d2).
    destruct (Rle_lt_dec k 0).
    + rewrite !glue_l by lra. apply D1; auto; lra.
    + rewrite (glue_r a g h (a + k)) by lra. rewrite !glue_l by lra. rewrite E, E1. apply D2; auto; lra.
  - destruct (DH x eps P) as [d D]. assert (Q : 0 < Rmin d (x - a)) by (apply Rmin_pos; [apply cond_pos|lra]).
    exists (mkposreal _ Q). intros k K1 K2. cbn in K2. pose proof (Rmin_l d (x - a)). pose proof (Rmin_r d (x - a)).
    pose proof (Rle_abs (- k)) as A. rewrite Rabs_Ropp in A. rewrite !glue_r by lra. apply D; auto; lra.
Qed.

(** Continuity in the epsilon-delta form. *)
Definition cont_at (f : R -> R) (x : R) : Prop :=
  forall eps, 0 < eps -> exists d, 0 < d /\ forall y, Rabs (y - x) < d -> Rabs (f y - f x) < eps.
Lemma cont_at_pt f x : cont_at f x <-> continuity_pt f x.
Proof.
  split.
  - intros H eps P. destruct (H eps P) as (d & D & K). exists d. split; auto. intros y [_ Y]. apply K. exact Y.
  - intros H eps P. destruct (H eps P) as (d & D & K). exists d. split; auto. intros y Y. destruct (Req_dec x y) as [<-|N].
    + now rewrite Rminus_eq_0, Rabs_R0.
    + apply K. split; [split; [exact I|auto]|exact Y].
Qed.

Lemma glue_cont a g h : (forall x, cont_at g x) -> (forall x, cont_at h x) -> g a = h a -> forall x, cont_at (glue a g h) x.
Proof.
  intros CG CH E x eps P. destruct (Rtotal_order x a) as [L|[->|G]].
  - destruct (CG x eps P) as (d & D & K). exists (Rmin d (a - x)). split; [apply Rmin_pos; lra|]. intros y Y.
    pose proof (Rmin_l d (a - x)). pose proof (Rmin_r d (a - x)). pose proof (Rle_abs (y - x)). rewrite !glue_l by lra. apply K. lra.
  - destruct (CG a eps P) as (d1 & D1 & K1). destruct (CH a eps P) as (d2 & D2 & K2). exists (Rmin d1 d2). split; [apply Rmin_pos; lra|].
    intros y Y. pose proof (Rmin_l d1 d2). pose proof (Rmin_r d1 d2). rewrite (glue_l a g h a) by lra. destruct (Rle_lt_dec y a).
    + rewrite glue_l by lra. apply K1. lra.
    + rewrite glue_r by lra. rewrite E. apply K2. lra.
  - destruct (CH x eps P) as (d & D & K). exists (Rmin d (x - a)). split; [apply Rmin_pos; lra|]. intros y Y.
    pose proof (Rmin_l d (x - a)). pose proof (Rmin_r d (x - a)). pose proof (Rle_abs (- (y - x))) as A. rewrite Rabs_Ropp in A.
    rewrite !glue_r by lra. apply K. lra.
Qed.

(** * Many pieces *)

Fixpoint pw (bs : list R) (fs : list (R -> R)) : R -> R :=
  match fs with
  | [] => fun _ => 0
  | f :: fs' => match bs, fs' with b :: bs', _ :: _ => glue b f (pw bs' fs') | _, _ => f end
  end.
Fixpoint matched (bs : list R) (fs : list (R -> R)) : Prop :=
  match bs, fs with b :: bs', f :: ((g :: _) as fs') => f b = g b /\ matched bs' fs' | _, _ => True end.
Fixpoint sorted (bs : list R) : Prop :=
  match bs with a :: ((b :: _) as bs') => a <= b /\ sorted bs' | _ => True end.

Lemma pw_head b bs f fs : sorted (b :: bs) -> pw bs (f :: fs) b = f b.
Proof. intros S. destruct bs as [|c bs]; [now destruct fs|]. destruct fs as [|g fs]; [reflexivity|]. cbn [pw]. apply glue_l. apply S. Qed.

Lemma pw_derive bs : forall fs gs, sorted bs -> matched bs fs -> matched bs gs ->
  Forall2 (fun f g => forall x, derivable_pt_lim f x (g x)) fs gs -> forall x, derivable_pt_lim (pw bs fs) x (pw bs gs x).
Proof.
  induction bs as [|b bs IH]; intros fs gs S M1 M2 F.
  - destruct F as [|f g fs gs D F]; [intros x; apply derivable_pt_lim_const|]. now destruct F.
  - destruct F as [|f g fs gs D F]; [intros x; apply derivable_pt_lim_const|].
    destruct F as [|f' g' fs gs D' F]; [exact D|]. cbn [matched] in M1, M2. destruct M1 as [E1 M1]. destruct M2 as [E2 M2].
    assert (S' : sorted bs) by (destruct bs; [exact I|apply S]).
    assert (F' : Forall2 (fun f g => forall x, derivable_pt_lim f x (g x)) (f' :: fs) (g' :: gs)) by (constructor; auto).
    intros x. apply (glue_derive b f (pw bs (f' :: fs)) g (pw bs (g' :: gs))); auto; rewrite pw_head; auto.
Qed.
Lemma pw_cont bs : forall fs, sorted bs -> matched bs fs -> Forall (fun f => forall x, cont_at f x) fs -> forall x, cont_at (pw bs fs) x.
Proof.
  assert (Z : forall x, cont_at (fun _ => 0) x).
  { intros x eps P. exists 1. split; [lra|]. intros y _. now rewrite Rminus_eq_0, Rabs_R0. }
  induction bs as [|b bs IH]; intros fs S M F.
  - destruct F as [|f fs C F]; [exact Z|]. now destruct F.
  - destruct F as [|f fs C F]; [exact Z|]. destruct F as [|f' fs C' F]; [exact C|]. cbn [matched] in M. destruct M as [E M].
    assert (S' : sorted bs) by (destruct bs; [exact I|apply S]).
    intros x. apply (glue_cont b f (pw bs (f' :: fs))); auto. rewrite pw_head; auto.
Qed.
(** A bound that all pieces obey on their own intervals. *)
Lemma pw_cases bs : forall fs x, fs <> [] -> exists i, (i < length fs)%nat /\ pw bs fs x = nth i fs (fun _ => 0) x
  /\ (forall j b, (j < i)%nat -> nth_error bs j = Some b -> b < x) /\ (forall b, (S i < length fs)%nat -> nth_error bs i = Some b -> x <= b).
Proof.
  induction bs as [|b bs IH]; intros fs x N.
  - destruct fs as [|f fs]; [congruence|]. exists O. split; [cbn; lia|]. split; [now destruct fs|]. split; [intros; lia|intros b _ E; discriminate].
  - destruct fs as [|f [|g fs]]; [congruence| |].
    + exists O. split; [cbn; lia|]. split; [reflexivity|]. split; [intros; lia|]. cbn. intros; lia.
    + destruct (Rle_lt_dec x b) as [L|L].
      * exists O. split; [cbn; lia|]. split; [cbn [pw nth]; now apply glue_l|]. split; [intros; lia|]. intros c _ E. cbn in E. congruence.
      * destruct (IH (g :: fs) x ltac:(discriminate)) as (i & I1 & I2 & I3 & I4). exists (S i). split; [cbn in *; lia|].
        split; [change (pw (b :: bs) (f :: g :: fs) x) with (glue b f (pw bs (g :: fs)) x); rewrite glue_r by auto; exact I2|]. split.
        -- intros [|j] c J E; cbn in E; [congruence|]. apply (I3 j); [lia|auto].
        -- intros c Q E. apply I4; [cbn in *; lia|]. exact E.
Qed.

(** * The search *)

Fixpoint fidx (ds : list R) (x : R) : nat :=
  match ds with [] => O | d :: ds' => if Rlt_dec d x then S (fidx ds' x) else O end.

Lemma fidx_le ds x : ds <> [] -> x <= last ds 0 -> (fidx ds x < length ds)%nat.
Proof.
  induction ds as [|d ds IH]; intros N L; [congruence|]. cbn [fidx length]. destruct (Rlt_dec d x) as [G|G]; [|lia].
  destruct ds as [|e ds]; [cbn in L; lra|]. specialize (IH ltac:(discriminate) L). lia.
Qed.

Lemma pw_fidx ds : forall fs x, length fs = length ds -> ds <> [] -> x <= last ds 0 ->
  pw (removelast ds) fs x = nth (fidx ds x) fs (fun _ => 0) x.
Proof.
  induction ds as [|d ds IH]; intros fs x L N X; [congruence|]. destruct fs as [|f fs]; [discriminate|]. cbn [length] in L.
  destruct ds as [|e ds].
  - destruct fs; [|discriminate]. cbn in X. cbn [removelast pw fidx]. destruct (Rlt_dec d x); [lra|reflexivity].
  - destruct fs as [|g fs]; [discriminate|]. specialize (IH (g :: fs) x ltac:(cbn in *; lia) ltac:(discriminate) X).
    change (removelast (d :: e :: ds)) with (d :: removelast (e :: ds)). cbn [fidx].
    change (pw (d :: removelast (e :: ds)) (f :: g :: fs) x) with (glue d f (pw (removelast (e :: ds)) (g :: fs)) x).
    destruct (Rlt_dec d x) as [G|G].
    + rewrite glue_r by auto. exact IH.
    + rewrite glue_l by lra. reflexivity.
Qed.

Lemma rget_nth (l : list R) i : (i < length l)%nat -> rget l (Z.of_nat i) = FOk (nth i l 0).
Proof. intros L. unfold rget. now rewrite zget_nth. Qed.
Lemma aget_nth {A} (l : list A) i d : (i < length l)%nat -> aget l (Z.of_nat i) = FOk (nth i l d).
Proof.
  intros L. unfold aget, zget. replace (Z.of_nat i <? 0)%Z with false by lia. rewrite Nat2Z.id. now rewrite (nth_error_nth' l d L).
Qed.

Lemma find_index_spec pre : forall ds x fuel, ds <> [] -> x <= last ds 0 -> (length ds <= fuel)%nat -> pre <> [] ->
  find_index (pre ++ ds) x fuel (Z.of_nat (length pre - 1)) = FOk (Z.of_nat (length pre - 1 + fidx ds x)).
Proof.
  intros ds. revert pre. induction ds as [|d ds IH]; intros pre x fuel N X F NP; [congruence|].
  destruct fuel as [|fuel]; [cbn in F; lia|]. cbn [find_index].
  assert (LP : (1 <= length pre)%nat) by (destruct pre; [congruence|cbn; lia]).
  replace (Z.of_nat (length pre - 1) + 1)%Z with (Z.of_nat (length pre)) by lia.
  rewrite rget_nth by (rewrite app_length; cbn; lia). rewrite app_nth2, Nat.sub_diag by lia. cbn [nth fbind fidx].
  destruct (Rlt_dec d x) as [G|G]; [|f_equal; lia].
  destruct ds as [|e ds]; [cbn in X; lra|].
  specialize (IH (pre ++ [d]) x fuel ltac:(discriminate) X ltac:(cbn in *; lia) ltac:(destruct pre; discriminate)).
  rewrite <- app_assoc in IH. cbn [app] in IH. rewrite app_length in IH. cbn [length] in IH.
  replace (length pre + 1 - 1)%nat with (length pre) in IH by lia. rewrite IH. f_equal. lia.
Qed.

Lemma spline_index_ok debug d ds x : ds <> [] -> d <= x -> x <= last ds 0 -> spline_index debug (d :: ds) x = FOk (Z.of_nat (fidx ds x)).
Proof.
  intros N L H. unfold spline_index. replace (last (d :: ds) 0) with (last ds 0) by (destruct ds; [congruence|reflexivity]).
  destruct (Rle_dec d x); [|lra]. destruct (Rle_dec x (last ds 0)); [|lra]. cbn [andb negb]. rewrite Bool.andb_false_r.
  rewrite (find_index_spec [d] ds x); auto; [cbn; lia|discriminate].
Qed.

Lemma find_index_past pre : forall ds x fuel, last ds 0 < x -> ds <> [] -> sorted ds -> pre <> [] ->
  find_index (pre ++ ds) x fuel (Z.of_nat (length pre - 1)) = FUB.
Proof.
  intros ds. revert pre. induction ds as [|d ds IH]; intros pre x fuel X N SO NP; [congruence|].
  destruct fuel as [|fuel]; [reflexivity|]. cbn [find_index].
  assert (LP : (1 <= length pre)%nat) by (destruct pre; [congruence|cbn; lia]).
  replace (Z.of_nat (length pre - 1) + 1)%Z with (Z.of_nat (length pre)) by lia.
  rewrite rget_nth by (rewrite app_length; cbn; lia). rewrite app_nth2, Nat.sub_diag by lia. cbn [nth fbind].
  assert (DX : d < x).
  { assert (K : forall l a, sorted (a :: l) -> a <= last (a :: l) 0).
    { induction l as [|b l IL]; intros a SA; [cbn; lra|]. destruct SA as [A1 A2]. specialize (IL b A2). change (last (a :: b :: l) 0) with (last (b :: l) 0). lra. }
    specialize (K ds d SO). lra. }
  destruct (Rlt_dec d x); [|lra]. destruct ds as [|e ds].
  - destruct fuel as [|fuel]; [reflexivity|]. cbn [find_index]. unfold rget, zget.
    replace (Z.of_nat (length pre) + 1 <? 0)%Z with false by lia. replace (nth_error _ _) with (@None R); [reflexivity|].
    symmetry. apply nth_error_None. rewrite app_length. cbn. lia.
  - specialize (IH (pre ++ [d]) x fuel X ltac:(discriminate) (proj2 SO) ltac:(destruct pre; discriminate)).
    rewrite <- app_assoc in IH. cbn [app] in IH. rewrite app_length in IH. cbn [length] in IH.
    replace (length pre + 1 - 1)%nat with (length pre) in IH by lia. exact IH.
Qed.

(** * Strictly increasing abscissae *)

Definition increasing (xs : list R) : Prop := forall i, (S i < length xs)%nat -> nth i xs 0 < nth (S i) xs 0.

Lemma increasing_lt xs i j : increasing xs -> (i < j)%nat -> (j < length xs)%nat -> nth i xs 0 < nth j xs 0.
Proof.
  intros H L. induction L as [|j L IH]; intros B; [now apply H|]. apply Rlt_trans with (nth j xs 0); [apply IH; lia|apply H; lia].
Qed.
Lemma nth_sorted (l : list R) : (forall i, (S i < length l)%nat -> nth i l 0 <= nth (S i) l 0) -> sorted l.
Proof.
  induction l as [|a l IH]; intros H; [exact I|]. destruct l as [|b l]; [exact I|]. split; [apply (H 0%nat); cbn; lia|].
  apply IH. intros i L. apply (H (S i)). cbn in *. lia.
Qed.
Lemma sorted_nth (l : list R) : sorted l -> forall i, (S i < length l)%nat -> nth i l 0 <= nth (S i) l 0.
Proof.
  induction l as [|a l IH]; intros S i L; [cbn in L; lia|]. destruct l as [|b l]; [cbn in L; lia|]. destruct S as [S1 S2].
  destruct i as [|i]; [exact S1|]. apply (IH S2). cbn in *. lia.
Qed.
Lemma matched_nth bs : forall fs, (length fs = S (length bs))%nat ->
  (forall i, (i < length bs)%nat -> nth i fs (fun _ => 0) (nth i bs 0) = nth (S i) fs (fun _ => 0) (nth i bs 0)) -> matched bs fs.
Proof.
  induction bs as [|b bs IH]; intros fs L H; [exact I|]. destruct fs as [|f [|g fs]]; cbn in L; try lia. split; [apply (H 0%nat); cbn; lia|].
  apply IH; [cbn; lia|]. intros i I1. apply (H (S i)). cbn. lia.
Qed.
Lemma nth_removelast {A} (l : list A) d : forall i, (S i < length l)%nat -> nth i (removelast l) d = nth i l d.
Proof.
  induction l as [|a l IH]; intros i L; [cbn in L; lia|]. destruct l as [|b l]; [cbn in L; lia|].
  change (removelast (a :: b :: l)) with (a :: removelast (b :: l)). destruct i as [|i]; [reflexivity|]. apply IH. cbn in *. lia.
Qed.
Lemma removelast_len {A} (l : list A) : length (removelast l) = (length l - 1)%nat.
Proof.
  induction l as [|a l IH]; [reflexivity|]. destruct l as [|b l]; [reflexivity|].
  change (removelast (a :: b :: l)) with (a :: removelast (b :: l)). cbn [length] in *. lia.
Qed.
Lemma last_nth (l : list R) : l <> [] -> last l 0 = nth (length l - 1) l 0.
Proof.
  induction l as [|a l IH]; intros N; [congruence|]. destruct l as [|b l]; [reflexivity|].
  change (last (a :: b :: l) 0) with (last (b :: l) 0). rewrite IH by discriminate. cbn [length]. rewrite !Nat.sub_succ, !Nat.sub_0_r. reflexivity.
Qed.

Lemma fidx_strict ds i : (forall j k, (j < k)%nat -> (k < length ds)%nat -> nth j ds 0 < nth k ds 0) -> (i < length ds)%nat -> fidx ds (nth i ds 0) = i.
Proof.
  revert i. induction ds as [|d ds IH]; intros i M L; [cbn in L; lia|]. destruct i as [|i]; cbn [nth fidx].
  - destruct (Rlt_dec d d); [lra|reflexivity].
  - pose proof (M 0%nat (S i) ltac:(lia) L) as Q. cbn [nth] in Q. destruct (Rlt_dec d (nth i ds 0)); [|lra]. f_equal. apply IH; [|cbn in L; lia].
    intros j k J K. apply (M (S j) (S k)); cbn; lia.
Qed.
Lemma fidx_interval ds x i : (i < length ds)%nat -> x <= nth i ds 0 -> (forall j, (j < i)%nat -> nth j ds 0 < x) -> fidx ds x = i.
Proof.
  revert i. induction ds as [|d ds IH]; intros i L X J; [cbn in L; lia|]. cbn [fidx]. destruct i as [|i].
  - cbn [nth] in X. destruct (Rlt_dec d x); [lra|reflexivity].
  - pose proof (J 0%nat ltac:(lia)) as Q. cbn [nth] in Q. destruct (Rlt_dec d x); [|lra]. f_equal. apply IH; [cbn in L; lia|exact X|]. intros j K. apply (J (S j)). lia.
Qed.
Lemma sorted_mono (l : list R) i j : sorted l -> (i <= j)%nat -> (j < length l)%nat -> nth i l 0 <= nth j l 0.
Proof.
  intros SO L. induction L as [|j L IH]; intros B; [lra|]. apply Rle_trans with (nth j l 0); [apply IH; lia|]. apply sorted_nth; auto.
Qed.

(** * The piece at a point, on a weakly increasing grid *)

Lemma pw_at bs : forall fs t k, (length fs = S (length bs))%nat -> sorted bs -> matched bs fs -> (k < length fs)%nat ->
  (forall j, (j < k)%nat -> nth j bs 0 <= t) -> (forall j, (k <= j)%nat -> (j < length bs)%nat -> t <= nth j bs 0) ->
  pw bs fs t = nth k fs (fun _ => 0) t.
Proof.
  induction bs as [|b bs IH]; intros fs t k L SO M K LO HI.
  - destruct fs as [|f [|g fs]]; cbn in *; try lia. now replace k with 0%nat by lia.
  - destruct fs as [|f [|g fs]]; cbn [length] in *; try lia. destruct M as [E M].
    assert (S' : sorted bs) by (destruct bs; [exact I|apply SO]).
    change (pw (b :: bs) (f :: g :: fs) t) with (glue b f (pw bs (g :: fs)) t). destruct k as [|k].
    + rewrite glue_l; [reflexivity|]. apply (HI 0%nat); lia.
    + rewrite glue_r'; [|rewrite pw_head; auto|apply (LO 0%nat); lia]. change (nth (S k) (f :: g :: fs) (fun _ => 0)) with (nth k (g :: fs) (fun _ : R => 0)). apply IH; auto; try (cbn [length]; lia).
      * intros j J. apply (LO (S j)). lia.
      * intros j J1 J2. apply (HI (S j)); lia.
Qed.

