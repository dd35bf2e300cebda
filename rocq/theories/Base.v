(** Shared vocabulary of the model: outcomes of C++ calls, machine integers,
    and list access by [Z] index.  Nothing here is specific to one package. *)
From Coq Require Export List Arith ZArith Lia Bool.
From Coq Require Export ZifyBool ZifyNat.
Export ListNotations.
Open Scope Z_scope.

Ltac Zify.zify_post_hook ::= Z.div_mod_to_equations.

(** Error flags.  The enum itself lives in ecl_errors (ecl_lite), outside /repo; only the
    names used by the modelled code appear.  Uses: e.g. ecl_containers/.../array_dynamic_no_mem_check.hpp:440. *)
Inductive err : Type :=
| NoError | OutOfRangeError | ConversionError | ConstructorError | OpenError | CloseError
| NotFoundError | InvalidInputError | InvalidArgError | BusyError | MemoryError
| ReadError | WriteError | UsageError | UnknownError | SystemFailureError | ArgNotSupportedError
| PermissionsError | TimeOutError | BlockingError | InterruptedError | ConfigurationError.

(** Outcome of a C++ call: normal result, exception, or undefined behaviour. *)
Inductive res (A : Type) : Type :=
| Ok (a : A)
| Throw (e : err)
| UB.
Arguments Ok {A} a.
Arguments Throw {A} e.
Arguments UB {A}.

Definition bind {A B} (m : res A) (f : A -> res B) : res B :=
  match m with Ok a => f a | Throw e => Throw e | UB => UB end.
Notation "x <- m ;; k" := (bind m (fun x => k))
  (at level 60, m at next level, right associativity).

Definition is_ub {A} (m : res A) : bool := match m with UB => true | _ => false end.

(** ecl_assert_throw, ecl_exceptions/include/ecl/exceptions/macros.hpp:84-127:
    throws in debug builds, does nothing in release builds. *)
Definition assert_throw (debug ok : bool) (e : err) : res unit :=
  if debug && negb ok then Throw e else Ok tt.

(** Case split on every [if] and close by arithmetic. *)
Ltac ifs :=
  repeat match goal with
  | |- context [if ?b then _ else _] => destruct b eqn:?
  | H : context [if ?b then _ else _] |- _ => destruct b eqn:?
  end.
Ltac iflia := ifs; lia.

(** 32- and 64-bit machine integers (LP64). *)
Definition two32 : Z := 2 ^ 32.
Definition two64 : Z := 2 ^ 64.
Definition u32 (z : Z) : Z := z mod two32.
Definition u64 (z : Z) : Z := z mod two64.
Definition int_min : Z := - 2 ^ 31.
Definition int_max : Z := 2 ^ 31 - 1.
Definition in_int (z : Z) : bool := (int_min <=? z) && (z <=? int_max).
(** Signed [int] arithmetic: overflow is undefined. *)
Definition int_op (z : Z) : res Z := if in_int z then Ok z else UB.

(** Two's complement interpretation of the low [bits] bits. *)
Definition wrap_s (bits : Z) (z : Z) : Z :=
  let m := z mod 2 ^ bits in if m <? 2 ^ (bits - 1) then m else m - 2 ^ bits.

Definition Zlen {A} (l : list A) : Z := Z.of_nat (length l).

(** List access by [Z] index; [None] outside. *)
Definition zget {A} (l : list A) (i : Z) : option A :=
  if i <? 0 then None else nth_error l (Z.to_nat i).

Fixpoint upd {A} (n : nat) (x : A) (l : list A) : list A :=
  match l, n with
  | [], _ => []
  | _ :: t, O => x :: t
  | h :: t, S k => h :: upd k x t
  end.

Definition zset {A} (l : list A) (i : Z) (x : A) : list A :=
  if i <? 0 then l else upd (Z.to_nat i) x l.

(** * Lemmas on the vocabulary *)

Lemma Zlen_nonneg {A} (l : list A) : 0 <= Zlen l.
Proof. unfold Zlen. lia. Qed.

Lemma Zlen_app {A} (l k : list A) : Zlen (l ++ k) = Zlen l + Zlen k.
Proof. unfold Zlen. rewrite app_length. lia. Qed.

Lemma Zlen_cons {A} (x : A) l : Zlen (x :: l) = 1 + Zlen l.
Proof. unfold Zlen. simpl length. lia. Qed.

Lemma Zlen_nil {A} : Zlen (@nil A) = 0.
Proof. reflexivity. Qed.

(** [rewrite Zlen_nil] may match the literal 0 up to conversion; use this instead. *)
Ltac znil :=
  repeat match goal with
  | |- context [@Zlen ?A nil] => change (@Zlen A nil) with 0
  | H : context [@Zlen ?A nil] |- _ => change (@Zlen A nil) with 0 in H
  end.

Lemma Zlen_repeat {A} (x : A) n : Zlen (repeat x n) = Z.of_nat n.
Proof. unfold Zlen. rewrite repeat_length. reflexivity. Qed.

Lemma upd_length {A} n (x : A) l : length (upd n x l) = length l.
Proof. revert n; induction l as [|h t IH]; intros [|n]; simpl; auto. Qed.

Lemma Zlen_zset {A} (l : list A) i x : Zlen (zset l i x) = Zlen l.
Proof. unfold zset, Zlen. destruct (i <? 0); rewrite ?upd_length; reflexivity. Qed.

Lemma nth_error_upd_eq {A} n (x : A) l : (n < length l)%nat -> nth_error (upd n x l) n = Some x.
Proof.
  revert n; induction l as [|h t IH]; intros [|n] H; simpl in *; try lia; try reflexivity.
  apply IH; lia.
Qed.

Lemma nth_error_upd_neq {A} n m (x : A) l : n <> m -> nth_error (upd n x l) m = nth_error l m.
Proof.
  revert n m; induction l as [|h t IH]; intros [|n] [|m] H; simpl; try reflexivity; try congruence.
  apply IH; congruence.
Qed.

Lemma zget_zset_eq {A} (l : list A) i x : 0 <= i < Zlen l -> zget (zset l i x) i = Some x.
Proof.
  intros H. unfold zget, zset, Zlen in *. destruct (i <? 0) eqn:E; [lia|].
  apply nth_error_upd_eq. lia.
Qed.

Lemma zget_zset_neq {A} (l : list A) i j x : i <> j -> zget (zset l i x) j = zget l j.
Proof.
  intros H. unfold zget, zset. destruct (j <? 0) eqn:Ej; [reflexivity|].
  destruct (i <? 0) eqn:Ei; [reflexivity|]. apply nth_error_upd_neq. lia.
Qed.

Lemma zget_some {A} (l : list A) i : 0 <= i < Zlen l -> exists x, zget l i = Some x.
Proof.
  intros H. unfold zget, Zlen in *. destruct (i <? 0) eqn:E; [lia|].
  destruct (nth_error l (Z.to_nat i)) eqn:En; [eauto|].
  apply nth_error_None in En. lia.
Qed.

Lemma zget_none {A} (l : list A) i : (i < 0 \/ Zlen l <= i) -> zget l i = None.
Proof.
  intros H. unfold zget, Zlen in *. destruct (i <? 0) eqn:E; [reflexivity|].
  apply nth_error_None. lia.
Qed.

Lemma zget_inv {A} (l : list A) i x : zget l i = Some x -> 0 <= i < Zlen l.
Proof.
  unfold zget, Zlen. destruct (i <? 0) eqn:E; [discriminate|]. intros H.
  assert (Z.to_nat i < length l)%nat by (apply nth_error_Some; congruence). lia.
Qed.

Lemma zget_app_l {A} (l k : list A) i : i < Zlen l -> zget (l ++ k) i = zget l i.
Proof.
  intros H. unfold zget, Zlen in *. destruct (i <? 0) eqn:E; [reflexivity|].
  apply nth_error_app1. lia.
Qed.

Lemma zget_app_r {A} (l k : list A) i : Zlen l <= i -> zget (l ++ k) i = zget k (i - Zlen l).
Proof.
  intros H. pose proof (Zlen_nonneg l). unfold zget, Zlen in *.
  destruct (i <? 0) eqn:E; [lia|]. destruct (i - Z.of_nat (length l) <? 0) eqn:E2; [lia|].
  rewrite nth_error_app2 by lia. f_equal. lia.
Qed.

Lemma zget_cons_0 {A} (x : A) l : zget (x :: l) 0 = Some x.
Proof. reflexivity. Qed.

Lemma zget_cons_pos {A} (x : A) l i : 0 < i -> zget (x :: l) i = zget l (i - 1).
Proof.
  intros H. unfold zget. destruct (i <? 0) eqn:E; [lia|]. destruct (i - 1 <? 0) eqn:E2; [lia|].
  replace (Z.to_nat i) with (S (Z.to_nat (i - 1))) by lia. reflexivity.
Qed.

Lemma list_ext {A} (l k : list A) :
  Zlen l = Zlen k -> (forall i, 0 <= i < Zlen l -> zget l i = zget k i) -> l = k.
Proof.
  revert k; induction l as [|x l IH]; intros [|y k] HL H; try reflexivity;
    rewrite ?Zlen_cons, ?Zlen_nil in HL; try (pose proof (Zlen_nonneg l)); try (pose proof (Zlen_nonneg k)); try lia.
  f_equal.
  - specialize (H 0). rewrite !zget_cons_0 in H. rewrite Zlen_cons in H.
    assert (Some x = Some y) by (apply H; lia). congruence.
  - apply IH; [lia|]. intros i Hi. specialize (H (i + 1)).
    rewrite !zget_cons_pos in H by lia. replace (i + 1 - 1) with i in H by lia.
    apply H. rewrite Zlen_cons. lia.
Qed.

Lemma zget_repeat {A} (x : A) n i : 0 <= i < Z.of_nat n -> zget (repeat x n) i = Some x.
Proof.
  intros H. unfold zget. destruct (i <? 0) eqn:E; [lia|].
  rewrite nth_error_repeat by lia. reflexivity.
Qed.

Lemma zget_map {A B} (f : A -> B) l i : zget (map f l) i = option_map f (zget l i).
Proof. unfold zget. destruct (i <? 0); [reflexivity|]. apply nth_error_map. Qed.

Lemma Zlen_map {A B} (f : A -> B) l : Zlen (map f l) = Zlen l.
Proof. unfold Zlen. rewrite map_length. reflexivity. Qed.

Lemma nth_error_seq_some s n i : (i < n)%nat -> nth_error (seq s n) i = Some (s + i)%nat.
Proof.
  revert s i; induction n as [|n IH]; intros s [|i] H; simpl; try lia.
  - f_equal. lia.
  - rewrite IH by lia. f_equal. lia.
Qed.

Lemma mod_small_or a b : 0 < b -> 0 <= a < 2 * b -> a mod b = if a <? b then a else a - b.
Proof.
  intros Hb Ha. destruct (a <? b) eqn:E; [apply Z.mod_small; lia|].
  symmetry. apply (Z.mod_unique a b 1); lia.
Qed.
