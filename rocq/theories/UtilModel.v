(** Model of ecl_utilities: Flags (ecl_utilities/include/ecl/utilities/flags.hpp).
    A flag set is an [int]; C++ bitwise operators on int are Coq's two's complement
    [Z.land], [Z.lor], [Z.lxor], [Z.lnot]. *)
From Verif Require Import Base.

(** Flags::value, flags.hpp:277; constructors :71-73. *)
Definition flags_empty : Z := 0.
Definition flags_of (flag : Z) : Z := flag.

(** testFlag, flags.hpp:84-98. *)
Definition test_flag (value flag : Z) : bool :=
  if negb (Z.land value flag =? 0) then true
  else if (flag =? 0) && (value =? 0) then true else false.

(** The operators: & flags.hpp:117-133 and :218-222, | :139-155, :228-242 and :272-275,
    ^ :161-177 and :248-262, ~ :183-188, assignment :198-212, clear :80. *)
Inductive flop : Type :=
| FAnd (mask : Z) | FOr (mask : Z) | FXor (mask : Z) | FNot | FAssign (mask : Z) | FClear.

Definition flags_op (value : Z) (o : flop) : Z :=
  match o with
  | FAnd m => Z.land value m
  | FOr m => Z.lor value m
  | FXor m => Z.lxor value m
  | FNot => Z.lnot value
  | FAssign m => m
  | FClear => 0
  end.

Definition flags_run (value : Z) (ops : list flop) : Z := fold_left flags_op ops value.

(** enum Bits, flags.hpp:28-33: Bit0 is 0, Bit(n+1) is 2^n. *)
Definition bits_enum (n : nat) : Z := match n with O => 0 | S k => 2 ^ Z.of_nat k end.
