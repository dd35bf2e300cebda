(** The rest of PushAndPop: construction without storage and with a value, and its iterators
    (ecl_containers/include/ecl/containers/push_and_pop/push_and_pop_dynamic.hpp). The other members are in RingModel. *)
From Verif Require Import Base RingModel.
Open Scope Z_scope.

(** PushAndPop(), push_and_pop_dynamic.hpp:86: no storage. *)
Definition pnp_default {A} : pnp A := mkPnp [] 0 0 0.
(** PushAndPop(length, d), push_and_pop_dynamic.hpp:99-107; push_and_pop_fixed.hpp:85-94. The cursors stay where they are. *)
Definition pnp_new_with {A} (debug : bool) (len : Z) (d : A) : res (pnp A) := q <- pnp_new debug len ;; Ok (pnp_fill q d).
(** Reading from begin() to end(), push_and_pop_dynamic.hpp:125-153: those of the array. begin() of an array without storage throws in
    debug builds (array_dynamic_no_mem_check.hpp:262-265) and is NULL otherwise, as is end(). *)
Definition pnp_iterate {A} (debug : bool) (q : pnp A) : res (list (option A)) :=
  _ <- assert_throw debug (negb (match p_data q with [] => true | _ => false end)) OutOfRangeError ;; Ok (p_data q).
