(** Ring buffers: [ecl::PushAndPop] (fixed and dynamic storage) and [ecl::FiFo].
    A cell holds [Some v] or [None] (indeterminate: allocated, never assigned). *)
From Verif Require Import Base.

(** ecl_containers/include/ecl/containers/array/array_dynamic_no_mem_check.hpp:409-427 and
    array_no_mem_check.hpp operator[]: bounds checked by ecl_assert_throw only; an out-of-range
    access in a release build is undefined behaviour. *)
Definition arr_get {C} (debug : bool) (a : list C) (i : Z) : res C :=
  match zget a i with
  | Some c => Ok c
  | None => if debug then Throw OutOfRangeError else UB
  end.
Definition arr_set {C} (debug : bool) (a : list C) (i : Z) (c : C) : res (list C) :=
  match zget a i with
  | Some _ => Ok (zset a i c)
  | None => if debug then Throw OutOfRangeError else UB
  end.

(** Array::resize, array_dynamic_no_mem_check.hpp:483-489: old storage deleted, fresh
    indeterminate cells (allocation failure is not modelled). *)
Definition arr_new {A} (n : Z) : list (option A) := repeat None (Z.to_nat n).

(** [int % unsigned] / [unsigned % unsigned] after the usual conversions; modulo zero is UB. *)
Definition umod (a n : Z) : res Z := if n =? 0 then UB else Ok (u32 a mod n).

(** * PushAndPop
    push_and_pop_dynamic.hpp:70-286, push_and_pop_fixed.hpp (same members, data has Size+1 cells). *)
Record pnp (A : Type) := mkPnp {
  p_data : list (option A);   (* data, :282 *)
  p_size : Z;                 (* size_fifo : unsigned int, :283 *)
  p_lead : Z;                 (* leader : int, :284 *)
  p_foll : Z                  (* follower : int, :285 *)
}.
Arguments mkPnp {A}. Arguments p_data {A}. Arguments p_size {A}.
Arguments p_lead {A}. Arguments p_foll {A}.

(** Constructor, push_and_pop_dynamic.hpp:92-97. *)
Definition pnp_new {A} (debug : bool) (len : Z) : res (pnp A) :=
  let s := u32 (len + 1) in
  _ <- assert_throw debug (0 <? s) OutOfRangeError ;;
  Ok (mkPnp (arr_new s) s 0 0).

(** push_back, push_and_pop_dynamic.hpp:224-234.  [leader++] is an int increment. *)
Definition pnp_push {A} (debug : bool) (q : pnp A) (x : A) : res (pnp A) :=
  d <- arr_set debug (p_data q) (p_lead q) (Some x) ;;
  l1 <- int_op (p_lead q + 1) ;;
  l2 <- umod l1 (p_size q) ;;
  if l2 =? p_foll q then
    f1 <- int_op (p_foll q + 1) ;;
    f2 <- umod f1 (p_size q) ;;
    Ok (mkPnp d (p_size q) l2 f2)
  else Ok (mkPnp d (p_size q) l2 (p_foll q)).

(** pop_front, push_and_pop_dynamic.hpp:236-242. *)
Definition pnp_pop {A} (debug : bool) (q : pnp A) : res (option A * pnp A) :=
  _ <- assert_throw debug (negb (p_foll q =? p_lead q)) OutOfRangeError ;;
  v <- arr_get debug (p_data q) (p_foll q) ;;
  f1 <- int_op (p_foll q + 1) ;;
  f2 <- umod f1 (p_size q) ;;
  Ok (v, mkPnp (p_data q) (p_size q) (p_lead q) f2).

(** operator[], push_and_pop_dynamic.hpp:198-206: int sum converted to unsigned, then modulo. *)
Definition pnp_get {A} (debug : bool) (q : pnp A) (idx : Z) : res (option A) :=
  s <- int_op (p_foll q + idx) ;;
  i <- umod s (p_size q) ;;
  arr_get debug (p_data q) i.

(** fill, push_and_pop_dynamic.hpp:244-247. *)
Definition pnp_fill {A} (q : pnp A) (x : A) : pnp A :=
  mkPnp (repeat (Some x) (length (p_data q))) (p_size q) (p_lead q) (p_foll q).

(** size, push_and_pop_dynamic.hpp:268-273 (unsigned arithmetic). *)
Definition pnp_size {A} (q : pnp A) : Z :=
  if p_foll q <? p_lead q then p_lead q - p_foll q
  else if p_lead q <? p_foll q then u32 (p_size q - p_foll q + p_lead q)
  else 0.

(** asize, push_and_pop_dynamic.hpp:263-266: the raw storage length. *)
Definition pnp_asize {A} (q : pnp A) : Z := p_size q.

(** clear, push_and_pop_dynamic.hpp:275-279. *)
Definition pnp_clear {A} (q : pnp A) : pnp A := mkPnp (p_data q) (p_size q) 0 0.

(** resize, push_and_pop_dynamic.hpp:249-254: the cursors are NOT reset. *)
Definition pnp_resize {A} (debug : bool) (q : pnp A) (len : Z) : res (pnp A) :=
  let s := u32 (len + 1) in
  _ <- assert_throw debug (0 <? s) OutOfRangeError ;;
  Ok (mkPnp (arr_new s) s (p_lead q) (p_foll q)).

(** operator()(other), push_and_pop_dynamic.hpp:208-216: cursors and the first size_fifo cells
    are taken from [o]; [size_fifo] itself is not. *)
Fixpoint copy_cells {C} (debug : bool) (n : nat) (i : Z) (dst src : list C) : res (list C) :=
  match n with
  | O => Ok dst
  | S k => v <- arr_get debug src i ;;
           d <- arr_set debug dst i v ;;
           copy_cells debug k (i + 1) d src
  end.
Definition pnp_copy_from {A} (debug : bool) (q o : pnp A) : res (pnp A) :=
  d <- copy_cells debug (Z.to_nat (p_size q)) 0 (p_data q) (p_data o) ;;
  Ok (mkPnp d (p_size q) (p_lead o) (p_foll o)).

(** One API call and its visible result. *)
Inductive pop A := PPush (x : A) | PPop | PClear | PFill (x : A) | PGet (i : Z) | PSize.
Arguments PPush {A}. Arguments PPop {A}. Arguments PClear {A}. Arguments PFill {A}.
Arguments PGet {A}. Arguments PSize {A}.
Inductive pout A := ONone | OVal (v : option A) | ONum (n : Z) | OExc (e : err).
Arguments ONone {A}. Arguments OVal {A}. Arguments ONum {A}. Arguments OExc {A}.

(** Calls in sequence; an exception leaves the object as it was at the throw (all throws above
    happen before the first assignment when the cursors are in range, otherwise before the cursor
    update), and the caller may carry on. [None] = undefined behaviour was reached. *)
Definition pnp_step {A} (debug : bool) (q : pnp A) (o : pop A) : option (pnp A * pout A) :=
  match o with
  | PPush x => match pnp_push debug q x with
               | Ok q' => Some (q', ONone) | Throw e => Some (q, OExc e) | UB => None end
  | PPop => match pnp_pop debug q with
            | Ok (v, q') => Some (q', OVal v) | Throw e => Some (q, OExc e) | UB => None end
  | PClear => Some (pnp_clear q, ONone)
  | PFill x => Some (pnp_fill q x, ONone)
  | PGet i => match pnp_get debug q i with
              | Ok v => Some (q, OVal v) | Throw e => Some (q, OExc e) | UB => None end
  | PSize => Some (q, ONum (pnp_size q))
  end.
Fixpoint pnp_run {A} (debug : bool) (q : pnp A) (os : list (pop A)) : option (pnp A * list (pout A)) :=
  match os with
  | [] => Some (q, [])
  | o :: os => match pnp_step debug q o with
               | None => None
               | Some (q', r) => match pnp_run debug q' os with
                                 | None => None | Some (q'', rs) => Some (q'', r :: rs) end
               end
  end.

(** * FiFo — fifo.hpp:81-177 *)
Record fifo (A : Type) := mkFifo {
  f_data : list (option A);   (* :174 *)
  f_size : Z;                 (* size_fifo, :175 *)
  f_run : Z                   (* running_index : unsigned, :176 *)
}.
Arguments mkFifo {A}. Arguments f_data {A}. Arguments f_size {A}. Arguments f_run {A}.

(** Constructors, fifo.hpp:89-96 and 103-110. *)
Definition fifo_new {A} (len : Z) : fifo A := mkFifo (arr_new len) len 0.
Definition fifo_new_fill {A} (len : Z) (v : A) : fifo A :=
  mkFifo (repeat (Some v) (Z.to_nat len)) len 0.
(** push_back, fifo.hpp:143-146 (unsigned increment). *)
Definition fifo_push {A} (debug : bool) (q : fifo A) (x : A) : res (fifo A) :=
  d <- arr_set debug (f_data q) (f_run q) (Some x) ;;
  r <- umod (f_run q + 1) (f_size q) ;;
  Ok (mkFifo d (f_size q) r).
(** operator[](int), fifo.hpp:122-134: unsigned + int is computed modulo 2^32. *)
Definition fifo_get {A} (debug : bool) (q : fifo A) (idx : Z) : res (option A) :=
  i <- umod (f_run q + idx) (f_size q) ;;
  arr_get debug (f_data q) i.
(** fill, fifo.hpp:152-154. *)
Definition fifo_fill {A} (q : fifo A) (x : A) : fifo A :=
  mkFifo (repeat (Some x) (length (f_data q))) (f_size q) (f_run q).
(** resize, fifo.hpp:167-171: running_index is NOT reset. *)
Definition fifo_resize {A} (debug : bool) (q : fifo A) (len : Z) : res (fifo A) :=
  _ <- assert_throw debug (0 <? len) OutOfRangeError ;;
  Ok (mkFifo (arr_new len) len (f_run q)).

Fixpoint fifo_pushes {A} (debug : bool) (q : fifo A) (xs : list A) : res (fifo A) :=
  match xs with
  | [] => Ok q
  | x :: xs => q' <- fifo_push debug q x ;; fifo_pushes debug q' xs
  end.
