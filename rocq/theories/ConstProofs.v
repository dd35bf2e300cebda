(** Bounds of pi by Machin's formula, and rounding by comparison. *)
From Coq Require Import Ratan Machin AltSeries.
From Flocq Require Import Core.
From Verif Require Import RBase ConstModel.
Open Scope R_scope.

Lemma atan_ineq x N : 0 < x < 1 ->
  sum_f_R0 (tg_alt (Ratan_seq x)) (S (2 * N)) <= atan x <= sum_f_R0 (tg_alt (Ratan_seq x)) (2 * N).
Proof.
  intros H. rewrite (atan_eq_ps_atan x H). unfold ps_atan. destruct (Ratan.in_int x) as [h|h]; [|lra].
  destruct (ps_atan_exists_1 x h) as (l & L). apply alternated_series_ineq; [apply Ratan_seq_decreasing; lra|apply Ratan_seq_converging; lra|exact L].
Qed.
(** The partial sums as fractions. *)
Fixpoint msum (q : Z) (n : nat) : R :=
  match n with
  | O => / IZR q
  | S k => msum q k + IZR (if Nat.even n then 1 else -1) * / IZR (q ^ (2 * Z.of_nat n + 1) * (2 * Z.of_nat n + 1))
  end.
Lemma msum_ok q n : (0 < q)%Z -> sum_f_R0 (tg_alt (Ratan_seq (/ IZR q))) n = msum q n.
Proof.
  intros Q. assert (IZR q <> 0) by (apply not_0_IZR; lia). induction n as [|n IH].
  - cbn [sum_f_R0 msum]. unfold tg_alt, Ratan_seq. cbn [Nat.mul Nat.add pow INR]. field. assumption.
  - cbn [sum_f_R0]. rewrite IH. change (msum q (S n)) with (msum q n + IZR (if Nat.even (S n) then 1 else -1) * / IZR (q ^ (2 * Z.of_nat (S n) + 1) * (2 * Z.of_nat (S n) + 1))).
    f_equal. unfold tg_alt, Ratan_seq. rewrite INR_IZR_INZ, pow_inv, (pow_IZR q). replace (Z.of_nat (2 * S n + 1)) with (2 * Z.of_nat (S n) + 1)%Z by lia.
    rewrite mult_IZR, Rinv_mult. unfold Rdiv.
    assert (P : (-1) ^ S n = IZR (if Nat.even (S n) then 1 else -1)).
    { clear. induction (S n) as [|k IHk]; [reflexivity|]. rewrite <- tech_pow_Rmult, IHk, Nat.even_succ, <- Nat.negb_even. destruct (Nat.even k); cbn [negb]; lra. }
    rewrite P. reflexivity.
Qed.
Lemma pi_bounds : 314159265358979323 / 100000000000000000 < PI < 314159265358979324 / 100000000000000000.
Proof.
  pose proof Machin_4_5_239 as M. pose proof (atan_ineq (/ 5) 6 ltac:(lra)) as A. pose proof (atan_ineq (/ 239) 2 ltac:(lra)) as B.
  rewrite !msum_ok in A, B by lia. cbn [msum Nat.mul Nat.add Nat.even] in A, B.
  repeat match type of A with context [IZR (?x * ?n)] => let v := eval vm_compute in (x * n)%Z in change (x * n)%Z with v in A end.
  repeat match type of B with context [IZR (?x * ?n)] => let v := eval vm_compute in (x * n)%Z in change (x * n)%Z with v in B end.
  set (a := atan (/ 5)) in *. set (b := atan (/ 239)) in *. clearbody a b. destruct A as [A1 A2], B as [B1 B2]. split; lra.
Qed.
