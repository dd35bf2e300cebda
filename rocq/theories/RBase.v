(** Vocabulary for code that computes with double: the doubles are idealised as exact real numbers (no rounding,
    no overflow), but an operation that has no finite result (division by zero, square root of a negative number,
    arc cosine outside [-1,1]) is a distinct outcome. *)
From Coq Require Export Reals Lra Psatz.
From Verif Require Export Base.
Open Scope R_scope.

(** Outcome of a computation on doubles: a value, an infinity or NaN, an exception, undefined behaviour. *)
Inductive fres (A : Type) : Type :=
| FOk (a : A)
| FNonFinite
| FThrow (e : err)
| FUB.
Arguments FOk {A} a.
Arguments FNonFinite {A}.
Arguments FThrow {A} e.
Arguments FUB {A}.

Definition fbind {A B} (m : fres A) (f : A -> fres B) : fres B :=
  match m with FOk a => f a | FNonFinite => FNonFinite | FThrow e => FThrow e | FUB => FUB end.
Notation "x <-- m ;; k" := (fbind m (fun x => k))
  (at level 60, m at next level, right associativity).

Definition lift {A} (m : res A) : fres A :=
  match m with Ok a => FOk a | Throw e => FThrow e | UB => FUB end.

(** IEEE 754 division, square root and arc cosine on finite arguments. *)
Definition fdiv (a b : R) : fres R := if Req_EM_T b 0 then FNonFinite else FOk (a / b).
Definition fsqrt (a : R) : fres R := if Rlt_dec a 0 then FNonFinite else FOk (sqrt a).
Definition facos (a : R) : fres R :=
  if Rlt_dec a (-1) then FNonFinite else if Rlt_dec 1 a then FNonFinite else FOk (acos a).

(** Reading an element of an array of doubles by index; outside the array: undefined. *)
Definition rget (l : list R) (i : Z) : fres R :=
  match zget l i with Some x => FOk x | None => FUB end.

(** Truncation towards zero, and C's fmod (which is exact). *)
Definition rtrunc (x : R) : Z := if Rle_dec 0 x then Int_part x else (- Int_part (- x))%Z.
Definition fmod (x y : R) : R := x - y * IZR (rtrunc (x / y)).

(** C's atan2 on real arguments (signed zeros are not represented). *)
Definition atan2 (y x : R) : R :=
  if Rlt_dec 0 x then atan (y / x)
  else if Rlt_dec x 0 then (if Rle_dec 0 y then atan (y / x) + PI else atan (y / x) - PI)
  else if Rlt_dec 0 y then PI / 2
  else if Rlt_dec y 0 then - (PI / 2)
  else 0.

(** * Lemmas *)

Lemma fdiv_ok a b : b <> 0 -> fdiv a b = FOk (a / b).
Proof. intros H. unfold fdiv. destruct (Req_EM_T b 0); [contradiction|reflexivity]. Qed.
Lemma fsqrt_ok a : 0 <= a -> fsqrt a = FOk (sqrt a).
Proof. intros H. unfold fsqrt. destruct (Rlt_dec a 0); [lra|reflexivity]. Qed.
Lemma facos_ok a : -1 <= a <= 1 -> facos a = FOk (acos a).
Proof. intros H. unfold facos. destruct (Rlt_dec a (-1)); [lra|]. destruct (Rlt_dec 1 a); [lra|reflexivity]. Qed.

Lemma Int_part_spec x : IZR (Int_part x) <= x < IZR (Int_part x) + 1.
Proof. destruct (base_Int_part x). lra. Qed.

Lemma rtrunc_pos x : 0 <= x -> IZR (rtrunc x) <= x < IZR (rtrunc x) + 1.
Proof. intros H. unfold rtrunc. destruct (Rle_dec 0 x); [apply Int_part_spec|lra]. Qed.
Lemma rtrunc_neg x : x < 0 -> IZR (rtrunc x) - 1 < x <= IZR (rtrunc x).
Proof.
  intros H. unfold rtrunc. destruct (Rle_dec 0 x); [lra|]. rewrite opp_IZR. pose proof (Int_part_spec (- x)). lra.
Qed.

Lemma fmod_pos x y : 0 < y -> 0 <= x -> 0 <= fmod x y < y.
Proof.
  intros Y X. unfold fmod. assert (Q : 0 <= x / y) by (apply Rmult_le_pos; [lra|left; now apply Rinv_0_lt_compat]).
  destruct (rtrunc_pos _ Q) as [A B]. set (k := IZR (rtrunc (x / y))) in *.
  assert (E : x = y * (x / y)) by (field; lra). split.
  - apply Rmult_le_compat_l with (r := y) in A; lra.
  - apply Rmult_lt_compat_l with (r := y) in B; lra.
Qed.
Lemma fmod_neg x y : 0 < y -> x < 0 -> - y < fmod x y <= 0.
Proof.
  intros Y X. unfold fmod.
  assert (Q : x / y < 0). { assert (0 < / y) by now apply Rinv_0_lt_compat. unfold Rdiv. nra. }
  destruct (rtrunc_neg _ Q) as [A B]. set (k := IZR (rtrunc (x / y))) in *.
  assert (E : x = y * (x / y)) by (field; lra). split.
  - apply Rmult_lt_compat_l with (r := y) in A; lra.
  - apply Rmult_le_compat_l with (r := y) in B; lra.
Qed.

(** Split on every decision about reals. *)
Ltac rdec :=
  repeat match goal with
  | |- context [Rlt_dec ?a ?b] => destruct (Rlt_dec a b)
  | |- context [Rle_dec ?a ?b] => destruct (Rle_dec a b)
  | |- context [Req_EM_T ?a ?b] => destruct (Req_EM_T a b)
  | H : context [Rlt_dec ?a ?b] |- _ => destruct (Rlt_dec a b)
  | H : context [Rle_dec ?a ?b] |- _ => destruct (Rle_dec a b)
  | H : context [Req_EM_T ?a ?b] |- _ => destruct (Req_EM_T a b)
  end.
