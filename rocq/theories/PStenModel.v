(** Model of Stencil<unsigned char*> and Stencil<const unsigned char*>, the windows on plain buffers:
    /repo/ecl_containers/include/ecl/containers/stencil/specialisations.hpp:39-436 and 453-833 (the second has no operator<<).
    All stencils of a program are made on one buffer. Pointers are offsets from the beginning of the buffer; forming and
    comparing pointers outside the buffer is plain arithmetic (indices are unsigned). Reading or writing outside the buffer is
    undefined. *)
From Verif Require Import Base.
Open Scope Z_scope.

(** 432-436: the length given for the buffer, b_iter and e_iter. *)
Record psten := mkP { p_len : Z; p_b : Z; p_e : Z }.
Definition load (m : list Z) (i : Z) : res Z := match zget m i with Some c => Ok c | None => UB end.
Definition store (m : list Z) (i c : Z) : res (list Z) := match zget m i with Some _ => Ok (zset m i c) | None => UB end.
(** Constructors from pointers, 72-80, 486-494, and from indices, 95-103, 509-517. *)
Definition p_ptrs (debug : bool) (len b e : Z) : res psten :=
  _ <- assert_throw debug (b <=? len) OutOfRangeError ;;
  _ <- assert_throw debug (e <=? len) OutOfRangeError ;;
  Ok (mkP len b e).
Definition p_make (debug : bool) (len start n : Z) : res psten := p_ptrs debug len start (start + n).
(** stencil(start_index, n), 120-126, 534-540: checked against the buffer. *)
Definition p_sub (debug : bool) (s : psten) (start n : Z) : res psten :=
  _ <- assert_throw debug (p_b s + start <=? p_len s) OutOfRangeError ;;
  _ <- assert_throw debug (p_b s + start + n <=? p_len s) OutOfRangeError ;;
  p_ptrs debug (p_len s) (p_b s + start) (p_b s + start + n).
(** resettle, 139-146, 553-560: the iterators are set before they are checked. The stencil afterwards, and the outcome. *)
Definition p_resettle (debug : bool) (s : psten) (start n : Z) : psten * res unit :=
  let s' := mkP (p_len s) start (start + n) in
  (s', _ <- assert_throw debug (p_b s' <=? p_len s') OutOfRangeError ;; assert_throw debug (p_e s' <=? p_len s') OutOfRangeError).
(** size, specialisations.hpp:408-409, 801-802. *)
Definition p_size (s : psten) : Z := (p_e s - p_b s) mod 2 ^ 64.
(** begin, end, front, back: 198-316, 591-709. *)
Definition p_begin (debug : bool) (s : psten) : res Z := _ <- assert_throw debug (p_b s <=? p_len s) OutOfRangeError ;; Ok (p_b s).
Definition p_end (debug : bool) (s : psten) : res Z := _ <- assert_throw debug (p_e s <=? p_len s) OutOfRangeError ;; Ok (p_e s).
Definition p_front (debug : bool) (m : list Z) (s : psten) : res Z := _ <- assert_throw debug (p_b s <=? p_len s) OutOfRangeError ;; load m (p_b s).
Definition p_back (debug : bool) (m : list Z) (s : psten) : res Z := _ <- assert_throw debug (p_e s <=? p_len s) OutOfRangeError ;; load m (p_e s - 1).
(** operator[], 330-352, 723-745. *)
Definition p_index (debug : bool) (s : psten) (i : Z) : res Z :=
  _ <- assert_throw debug (0 <=? p_b s + i) OutOfRangeError ;;
  _ <- assert_throw debug (p_b s + i <=? p_len s) OutOfRangeError ;;
  Ok (p_b s + i).
(** at, specialisations.hpp:363-398, 756-791. *)
Definition p_at (s : psten) (i : Z) : res Z :=
  if p_b s + i <=? 0 then Throw OutOfRangeError
  else if p_len s <=? p_b s + i then Throw OutOfRangeError
  else Ok (p_b s + i).
(** operator<< and the comma operators, specialisations.hpp:164-167 with initialiser.hpp:154-172: bounded by the size of the stencil. *)
Fixpoint p_fill (debug : bool) (m : list Z) (pos left : Z) (vs : list Z) : res (list Z) :=
  match vs with
  | [] => Ok m
  | v :: tl => _ <- assert_throw debug (0 <? left) OutOfRangeError ;; m1 <- store m pos v ;; p_fill debug m1 (pos + 1) (left - 1) tl
  end.
Definition p_init (debug : bool) (m : list Z) (s : psten) (v : Z) (vs : list Z) : res (list Z) :=
  b <- p_begin debug s ;; p_fill debug m b (p_size s) (v :: vs).
(** for (iter = begin(); iter != end(); ++iter): the bytes from begin to end; never-ending (undefined) if end comes first. *)
Fixpoint p_walk (m : list Z) (n : nat) (pos : Z) : res (list Z) :=
  match n with O => Ok [] | S n' => c <- load m pos ;; r <- p_walk m n' (pos + 1) ;; Ok (c :: r) end.
Definition p_all (debug : bool) (m : list Z) (s : psten) : res (list Z) :=
  b <- p_begin debug s ;; e <- p_end debug s ;;
  if e <? b then UB else p_walk m (Z.to_nat (e - b)) b.

(** * Programs: one buffer, its length as told to the stencils, and the stencils made so far. *)
Inductive pop :=
| PMake (start n : Z) | PSub (k : nat) (start n : Z) | PResettle (k : nat) (start n : Z) | PAssign (k j : nat)
| PGet (k : nat) (i : Z) | PSet (k : nat) (i c : Z) | PAt (k : nat) (i : Z) | PAtSet (k : nat) (i c : Z)
| PFront (k : nat) | PBack (k : nat) | PSize (k : nat) | PAll (k : nat) | PInit (k : nat) (v : Z) (vs : list Z).
Definition pick (t : list psten) (k : nat) : res psten := match nth_error t k with Some s => Ok s | None => UB end.
Fixpoint replace (t : list psten) (k : nat) (s : psten) : list psten :=
  match t, k with [], _ => [] | _ :: tl, O => s :: tl | x :: tl, S j => x :: replace tl j s end.
(** One statement: the buffer, the stencils and what was read. *)
Definition p_step (debug : bool) (len : Z) (m : list Z) (t : list psten) (o : pop) : res (list Z * list psten * list Z) :=
  match o with
  | PMake start n => s <- p_make debug len start n ;; Ok (m, t ++ [s], [])
  | PSub k start n => s <- pick t k ;; s' <- p_sub debug s start n ;; Ok (m, t ++ [s'], [])
  | PResettle k start n => s <- pick t k ;; let '(s', r) := p_resettle debug s start n in _ <- r ;; Ok (m, replace t k s', [])
  | PAssign k j => _ <- pick t k ;; s <- pick t j ;; Ok (m, replace t k s, [])
  | PGet k i => s <- pick t k ;; p <- p_index debug s i ;; c <- load m p ;; Ok (m, t, [c])
  | PSet k i c => s <- pick t k ;; p <- p_index debug s i ;; m1 <- store m p c ;; Ok (m1, t, [])
  | PAt k i => s <- pick t k ;; p <- p_at s i ;; c <- load m p ;; Ok (m, t, [c])
  | PAtSet k i c => s <- pick t k ;; p <- p_at s i ;; m1 <- store m p c ;; Ok (m1, t, [])
  | PFront k => s <- pick t k ;; c <- p_front debug m s ;; Ok (m, t, [c])
  | PBack k => s <- pick t k ;; c <- p_back debug m s ;; Ok (m, t, [c])
  | PSize k => s <- pick t k ;; Ok (m, t, [p_size s])
  | PAll k => s <- pick t k ;; l <- p_all debug m s ;; Ok (m, t, l)
  | PInit k v vs => s <- pick t k ;; m1 <- p_init debug m s v vs ;; Ok (m1, t, [])
  end.
Fixpoint p_run (debug : bool) (len : Z) (m : list Z) (t : list psten) (l : list pop) : res (list Z * list psten * list Z) :=
  match l with
  | [] => Ok (m, t, [])
  | o :: tl =>
    r <- p_step debug len m t o ;; let '(m1, t1, out) := r in
    r2 <- p_run debug len m1 t1 tl ;; let '(m2, t2, out2) := r2 in Ok (m2, t2, out ++ out2)
  end.
