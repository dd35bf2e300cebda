(** Theorems about ecl_utilities (C40, C117). *)
From Verif Require Import Base UtilModel UtilProofs.

(** ** C40: flag sets behave like sets of bits through every sequence of operations. *)
Theorem C40_flags_are_sets : forall v ops i, 0 <= i <= 30 ->
  test_flag (flags_run (flags_of v) ops) (2 ^ i) = set_run (bits_of v) ops i.
Proof.
  intros v ops i Hi. unfold flags_of. rewrite <- (flags_run_spec ops v (bits_of v)) by (auto; lia).
  unfold test_flag. rewrite land_pow2 by lia. destruct (Z.testbit (flags_run v ops) i); cbn [negb]; auto.
  assert (2 ^ i =? 0 = false) as -> by (apply Z.eqb_neq; pose proof (Z.pow_pos_nonneg 2 i); lia). reflexivity.
Qed.
Print Assumptions C40_flags_are_sets.

(** Starting empty: a flag tests true exactly when the last operation that touched it set it. *)
Theorem C40_set_then_kept : forall v i ops, 0 <= i <= 30 ->
  Forall (fun o => match o with FOr _ => True | FAnd m => Z.testbit m i = true
                            | FXor m => Z.testbit m i = false | _ => False end) ops ->
  test_flag (flags_run (Z.lor v (2 ^ i)) ops) (2 ^ i) = true.
Proof.
  intros v i ops Hi F. pose proof (C40_flags_are_sets (Z.lor v (2 ^ i)) ops i Hi) as K. unfold flags_of in K. rewrite K. clear K.
  assert (H : bits_of (Z.lor v (2 ^ i)) i = true).
  { unfold bits_of. rewrite Z.lor_spec, Z.pow2_bits_true by lia. apply orb_true_r. }
  revert H. generalize (bits_of (Z.lor v (2 ^ i))) as s. unfold set_run.
  induction F as [|o ops Ho F IH]; intros s Hs; cbn [fold_left]; auto. apply IH.
  destruct o; cbn [set_op]; unfold bits_of; try contradiction; rewrite Hs; auto. now rewrite Ho.
Qed.
Print Assumptions C40_set_then_kept.

(** No operation leaves the range of int. *)
Theorem C40_stays_in_int : forall ops, Forall (fun o => in_int (mask_of o) = true) ops ->
  in_int (flags_run flags_empty ops) = true.
Proof. intros ops F. apply flags_run_int; auto. Qed.
Print Assumptions C40_stays_in_int.

(** A set of flags starts without any, and after any operations holds what a set that starts empty would hold. *)
Theorem C40_starts_empty : forall ops i, 0 <= i <= 30 ->
  test_flag flags_empty (2 ^ i) = false /\ test_flag (flags_run flags_empty ops) (2 ^ i) = set_run (fun _ => false) ops i.
Proof.
  intros ops i Hi. assert (E : forall ops, test_flag (flags_run flags_empty ops) (2 ^ i) = set_run (fun _ => false) ops i).
  { intros l. change flags_empty with (flags_of 0). rewrite C40_flags_are_sets by lia. unfold set_run.
    assert (G : forall l s s', s i = s' i -> fold_left set_op l s i = fold_left set_op l s' i).
    { clear. induction l as [|o l IH]; cbn; intros s s' E; auto. apply IH. destruct o; cbn; rewrite ?E; reflexivity. }
    apply G. unfold bits_of. apply Z.bits_0. }
  split; [exact (E [])|apply E].
Qed.
Print Assumptions C40_starts_empty.

(** The predefined Bit1 ... Bit16 name the bits 0 ... 15, and Bit0 tests emptiness. *)
Theorem C40_predefined_bits : forall v n, (n <= 16)%nat ->
  test_flag v (bits_enum n) = match n with O => v =? 0 | S k => Z.testbit v (Z.of_nat k) end.
Proof.
  intros v [|k] H.
  - unfold test_flag. cbn [bits_enum]. rewrite Z.land_0_r. cbn. now destruct (v =? 0).
  - cbn [bits_enum]. change v with (flags_run (flags_of v) []) at 1. rewrite C40_flags_are_sets by lia. reflexivity.
Qed.
Print Assumptions C40_predefined_bits.

Example C40_example :
  test_flag (flags_run 0 [FOr 5; FXor 4; FNot; FNot; FAnd 7]) 1 = true /\
  test_flag (flags_run 0 [FOr 5; FXor 4; FNot; FNot; FAnd 7]) 4 = false.
Proof. split; reflexivity. Qed.

(** ** C117: testFlag of any flag value: true when a bit is shared, or both are empty. *)
Theorem C117_test_flag : forall v f,
  test_flag v f = true <->
  (exists i, 0 <= i /\ Z.testbit v i = true /\ Z.testbit f i = true) \/ (v = 0 /\ f = 0).
Proof.
  intros v f. rewrite <- land_nonzero. unfold test_flag.
  destruct (Z.land v f =? 0) eqn:E; cbn [negb].
  - apply Z.eqb_eq in E. destruct ((f =? 0) && (v =? 0)) eqn:B.
    + apply andb_true_iff in B as [B1 B2]. split; auto. intros _. right. lia.
    + split; [discriminate|]. intros [N|[-> ->]]; [congruence|discriminate].
  - apply Z.eqb_neq in E. split; auto.
Qed.
Print Assumptions C117_test_flag.

(** ** C118: a combination of flags tests true only if all of them are set -- it does not. *)
Theorem C118_combination_needs_all_refuted :
  exists v f, test_flag v f = true /\ Z.land v f <> f.
Proof. exists 1, 3. split; [reflexivity|]. discriminate. Qed.
Print Assumptions C118_combination_needs_all_refuted.

(** What remains: all flags of a combination are set exactly when each of them alone tests true. *)
Theorem C118_each_flag_partial : forall v f, Z.land v f = f <-> (forall i, 0 <= i -> Z.testbit f i = true -> test_flag v (2 ^ i) = true).
Proof.
  intros v f. split.
  - intros E i I T. apply C117_test_flag. left. exists i. split; [exact I|]. rewrite <- E in T. rewrite Z.land_spec in T. apply andb_true_iff in T as [T _].
    split; [exact T|]. now apply Z.pow2_bits_true.
  - intros H. apply Z.bits_inj'. intros i I. rewrite Z.land_spec. destruct (Z.testbit f i) eqn:T; [|apply andb_false_r]. rewrite andb_true_r.
    specialize (H i I T). apply C117_test_flag in H as [(j & J & A & B)|[_ B]].
    + destruct (Z.eq_dec i j) as [->|N]; [exact A|]. rewrite Z.pow2_bits_false in B by exact N. discriminate.
    + assert (0 < 2 ^ i) by (apply Z.pow_pos_nonneg; lia). lia.
Qed.
Print Assumptions C118_each_flag_partial.
Example C118_case : Z.land 7 5 = 5 /\ Z.land 3 5 <> 5 /\ test_flag 3 5 = true /\ test_flag 3 4 = false.
Proof. repeat split. discriminate. Qed.
