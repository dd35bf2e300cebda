(** Specification and lemmas for UtilModel. *)
From Verif Require Import Base UtilModel.

(** Specification: a set of bit positions, given by its membership function. *)
Definition bitset := Z -> bool.
Definition bits_of (v : Z) : bitset := fun i => Z.testbit v i.
Definition set_op (s : bitset) (o : flop) : bitset :=
  match o with
  | FAnd m => fun i => s i && bits_of m i
  | FOr m => fun i => s i || bits_of m i
  | FXor m => fun i => xorb (s i) (bits_of m i)
  | FNot => fun i => negb (s i)
  | FAssign m => bits_of m
  | FClear => fun _ => false
  end.
Definition set_run (s : bitset) (ops : list flop) : bitset := fold_left set_op ops s.

Definition mask_of (o : flop) : Z :=
  match o with FAnd m | FOr m | FXor m | FAssign m => m | FNot | FClear => 0 end.

(** [int] range through the bits above the 31st. *)
Lemma shiftr31 v : in_int v = true <-> Z.shiftr v 31 = 0 \/ Z.shiftr v 31 = -1.
Proof.
  unfold in_int, int_min, int_max. rewrite andb_true_iff, !Z.leb_le, Z.shiftr_div_pow2 by lia.
  change (2 ^ 31) with 2147483648. split; intros; lia.
Qed.

Lemma land_int a b : in_int a = true -> in_int b = true -> in_int (Z.land a b) = true.
Proof. rewrite !shiftr31, Z.shiftr_land. intros [-> | ->] [-> | ->]; cbn; auto. Qed.
Lemma lor_int a b : in_int a = true -> in_int b = true -> in_int (Z.lor a b) = true.
Proof. rewrite !shiftr31, Z.shiftr_lor. intros [-> | ->] [-> | ->]; cbn; auto. Qed.
Lemma lxor_int a b : in_int a = true -> in_int b = true -> in_int (Z.lxor a b) = true.
Proof. rewrite !shiftr31, Z.shiftr_lxor. intros [-> | ->] [-> | ->]; cbn; auto. Qed.
Lemma lnot_int a : in_int a = true -> in_int (Z.lnot a) = true.
Proof. unfold in_int, int_min, int_max, Z.lnot. rewrite !andb_true_iff, !Z.leb_le. lia. Qed.

Lemma flags_run_spec ops : forall v s,
  (forall i, 0 <= i -> Z.testbit v i = s i) ->
  forall i, 0 <= i -> Z.testbit (flags_run v ops) i = set_run s ops i.
Proof.
  induction ops as [|o ops IH]; intros v s H i Hi; cbn [flags_run set_run fold_left]; auto.
  apply IH; auto. intros j Hj. destruct o; cbn [flags_op set_op]; unfold bits_of.
  - now rewrite Z.land_spec, H.
  - now rewrite Z.lor_spec, H.
  - now rewrite Z.lxor_spec, H.
  - now rewrite Z.lnot_spec, H.
  - reflexivity.
  - now rewrite Z.bits_0.
Qed.

Lemma flags_run_int ops : forall v, in_int v = true -> Forall (fun o => in_int (mask_of o) = true) ops ->
  in_int (flags_run v ops) = true.
Proof.
  induction ops as [|o ops IH]; intros v H F; cbn [flags_run fold_left]; auto.
  inversion F as [|o1 l Fo Fl]; subst. apply IH; auto.
  destruct o; cbn [flags_op mask_of] in *; auto using land_int, lor_int, lxor_int, lnot_int.
Qed.

Lemma land_pow2 v i : 0 <= i -> (Z.land v (2 ^ i) =? 0) = negb (Z.testbit v i).
Proof.
  intros Hi. destruct (Z.testbit v i) eqn:T; cbn [negb].
  - apply Z.eqb_neq. intros E. apply (f_equal (fun z => Z.testbit z i)) in E.
    rewrite Z.land_spec, T, Z.pow2_bits_true, Z.bits_0 in E by lia. discriminate.
  - apply Z.eqb_eq. apply Z.bits_inj'. intros n Hn. rewrite Z.land_spec, Z.bits_0.
    destruct (Z.eq_dec n i) as [->|N]; [now rewrite T|].
    rewrite (Z.pow2_bits_false i n) by lia. apply andb_false_r.
Qed.

Lemma land_nonzero a b : Z.land a b <> 0 <-> exists i, 0 <= i /\ Z.testbit a i = true /\ Z.testbit b i = true.
Proof.
  split.
  - intros N. destruct (Z.eq_dec (Z.land a b) 0) as [E|_]; [contradiction|].
    destruct (Z_lt_ge_dec (Z.land a b) 0) as [L|G].
    + (* negative: a high bit is common *)
      apply Z.land_neg in L as [LA LB].
      apply Z.bits_iff_neg_ex in LA as [k KA], LB as [l LB].
      exists (Z.max 0 (Z.max k l) + 1). split; [lia|]. split; [apply KA|apply LB]; lia.
    + exists (Z.log2 (Z.land a b)). pose proof (Z.log2_nonneg (Z.land a b)).
      pose proof (Z.bit_log2 (Z.land a b) ltac:(lia)) as B. rewrite Z.land_spec in B.
      apply andb_true_iff in B. tauto.
  - intros (i & Hi & A & B) E. apply (f_equal (fun z => Z.testbit z i)) in E.
    rewrite Z.land_spec, A, B, Z.bits_0 in E. discriminate.
Qed.
