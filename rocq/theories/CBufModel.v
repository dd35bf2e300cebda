(** Model of the ownership of the buffers of the converters to character strings (ecl_converters).
    Memory is a list of blocks; a freed block is None. The conversions themselves are those of ConvModel. *)
From Verif Require Import Base ConvModel.
Open Scope Z_scope.

(** CharStringBuffer, ecl_converters/include/ecl/converters/char_strings.hpp:57-103: the block both pointers point into, the
    offsets of buffer_begin and buffer_end, delete_buffer. error_handler is left out, see ConvModel. *)
Record cbuf := mkCbuf { cb_blk : nat; cb_lo : Z; cb_hi : Z; cb_own : bool }.
(** Blocks, converters (None after destruction), character pointers handed out so far (None is NULL). *)
Record cheap := mkCheap { ch_mem : list (option (list Z)); ch_cvs : list (option cbuf); ch_ptrs : list (option (nat * Z)) }.
Definition ch0 : cheap := mkCheap [] [] [].

(** What a program does with converters. *)
Inductive cop :=
| CNew (room : bool) (size : Z)         (* Converter<char*> c(size); room: does new(nothrow) find memory *)
| COver (cells : list Z)                (* char b[...]; Converter<char*> c(b, b + sizeof(b) - 1) *)
| CConv (i : nat) (t : ity) (n : Z)     (* char *p = c(n) *)
| CRead (k : nat)                       (* read the text at the k-th pointer *)
| CDel (i : nat)                        (* destruction of a converter *)
| CCopy (i : nat)                       (* Converter<char*> d(c) *)
| CAssign (i j : nat).                  (* c = d *)

(** The pointed-to text: characters up to the terminating null; running out of the block is undefined. *)
Fixpoint c_text (l : list Z) : res (list Z) :=
  match l with [] => UB | c :: l => if c =? 0 then Ok [] else s <- c_text l ;; Ok (c :: s) end.
(** A block that exists. *)
Definition block (m : list (option (list Z))) (b : nat) : res (list Z) :=
  match nth_error m b with Some (Some c) => Ok c | _ => UB end.
(** A converter that exists. *)
Definition conv_of (h : cheap) (i : nat) : res cbuf :=
  match nth_error (ch_cvs h) i with Some (Some c) => Ok c | _ => UB end.
(** delete[] of a block: freeing twice is undefined. *)
Definition free (m : list (option (list Z))) (b : nat) : res (list (option (list Z))) :=
  _ <- block m b ;; Ok (upd b None m).

(** CharStringBuffer(size), char_strings.hpp:77-85: the terminator is stored through the pointer of new(nothrow) at line 79,
    before the pointer is compared with NULL at line 81, so without memory the constructor is undefined in every build.
    A size below one makes that store fall outside the block. *)
Definition cb_new (h : cheap) (room : bool) (size : Z) : res cheap :=
  if room then
    m <- store (repeat (-1) (Z.to_nat size)) (size - 1) 0 ;;
    Ok (mkCheap (ch_mem h ++ [Some m]) (ch_cvs h ++ [Some (mkCbuf (length (ch_mem h)) 0 (size - 1) true)]) (ch_ptrs h))
  else UB.
(** CharStringBuffer(begin,end), char_strings.hpp:67, over a whole array of the caller that outlives everything else. *)
Definition cb_over (h : cheap) (cells : list Z) : cheap :=
  mkCheap (ch_mem h ++ [Some cells]) (ch_cvs h ++ [Some (mkCbuf (length (ch_mem h)) 0 (Zlen cells - 1) false)]) (ch_ptrs h).
(** Converter<char*,T>::operator(), char_strings.hpp:213 and so on, 892-904: all operators of one object share the virtual
    base and with it the buffer. Of the overloads the integral ones are modelled here. *)
Definition cb_conv (h : cheap) (i : nat) (t : ity) (n : Z) : res cheap :=
  c <- conv_of h i ;; m <- block (ch_mem h) (cb_blk c) ;;
  r <- conv_cstr t n (cb_lo c) (cb_hi c) m ;;
  Ok (mkCheap (upd (cb_blk c) (Some (snd r)) (ch_mem h)) (ch_cvs h)
              (ch_ptrs h ++ [match fst r with Some p => Some (cb_blk c, p) | None => None end])).
(** Reading a character string that was handed out. *)
Definition cb_read (h : cheap) (k : nat) : res (list Z) :=
  match nth_error (ch_ptrs h) k with
  | Some (Some (b, p)) => m <- block (ch_mem h) b ;; c_text (skipn (Z.to_nat p) m)
  | _ => UB
  end.
(** ~CharStringBuffer, char_strings.hpp:89-94. *)
Definition cb_del (h : cheap) (i : nat) : res cheap :=
  c <- conv_of h i ;;
  m <- (if cb_own c then free (ch_mem h) (cb_blk c) else Ok (ch_mem h)) ;;
  Ok (mkCheap m (upd i None (ch_cvs h)) (ch_ptrs h)).
(** No copy constructor or assignment is declared (char_strings.hpp:57-103): both copy the members, delete_buffer included. *)
Definition cb_copy (h : cheap) (i : nat) : res cheap :=
  c <- conv_of h i ;; Ok (mkCheap (ch_mem h) (ch_cvs h ++ [Some c]) (ch_ptrs h)).
Definition cb_assign (h : cheap) (i j : nat) : res cheap :=
  _ <- conv_of h i ;; c <- conv_of h j ;; Ok (mkCheap (ch_mem h) (upd i (Some c) (ch_cvs h)) (ch_ptrs h)).

(** One operation and the text it read, a program and the texts it read. *)
Definition cb_step (h : cheap) (o : cop) : res (cheap * list (list Z)) :=
  match o with
  | CNew room size => h <- cb_new h room size ;; Ok (h, [])
  | COver cells => Ok (cb_over h cells, [])
  | CConv i t n => h <- cb_conv h i t n ;; Ok (h, [])
  | CRead k => s <- cb_read h k ;; Ok (h, [s])
  | CDel i => h <- cb_del h i ;; Ok (h, [])
  | CCopy i => h <- cb_copy h i ;; Ok (h, [])
  | CAssign i j => h <- cb_assign h i j ;; Ok (h, [])
  end.
Fixpoint cb_run (h : cheap) (l : list cop) : res (cheap * list (list Z)) :=
  match l with
  | [] => Ok (h, [])
  | o :: l => r <- cb_step h o ;; q <- cb_run (fst r) l ;; Ok (fst q, snd r ++ snd q)
  end.
