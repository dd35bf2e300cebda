(** Dynamic and fixed arrays, stencils, guarded (memory checked) arrays, comma initialisation.
    All line numbers in array_dynamic_no_mem_check.hpp unless stated otherwise
    (ecl_containers/include/ecl/containers/array/). *)
From Verif Require Import Base RingModel.

(** * Plain element access (shared by fixed and dynamic arrays)
    operator[] is [RingModel.arr_get]/[arr_set] (:409-427).
    at, :438-461 (also array_no_mem_check.hpp at): always checked. *)
Definition arr_at {C} (a : list C) (i : Z) : res C :=
  if Zlen a <=? i then Throw OutOfRangeError
  else match zget a i with Some c => Ok c | None => UB end.
Definition arr_set_at {C} (a : list C) (i : Z) (c : C) : res (list C) :=
  if Zlen a <=? i then Throw OutOfRangeError
  else match zget a i with Some _ => Ok (zset a i c) | None => UB end.

(** * Array objects over a heap *)
Definition block A := list (option A).
Definition heap A := list (option (block A)).      (* [None]: freed *)
Record aobj := mkA { a_n : Z; a_buf : option nat }. (* buffer_size, buffer : 517-518 *)

Definition h_alloc {A} (h : heap A) (n : Z) : heap A * nat :=
  (h ++ [Some (repeat None (Z.to_nat n))], length h).
(** delete[]: freeing a dead or unknown block is undefined. *)
Definition h_free {A} (h : heap A) (b : nat) : res (heap A) :=
  match nth_error h b with Some (Some _) => Ok (upd b None h) | _ => UB end.
Definition h_read {A} (h : heap A) (b : nat) (i : Z) : res (option A) :=
  match nth_error h b with
  | Some (Some blk) => match zget blk i with Some c => Ok c | None => UB end
  | _ => UB end.
Definition h_write {A} (h : heap A) (b : nat) (i : Z) (c : option A) : res (heap A) :=
  match nth_error h b with
  | Some (Some blk) => match zget blk i with
                       | Some _ => Ok (upd b (Some (zset blk i c)) h) | None => UB end
  | _ => UB end.

(** resize, :483-489. *)
Definition a_resize {A} (h : heap A) (o : aobj) (n : Z) : res (heap A * aobj) :=
  h1 <- match a_buf o with Some b => h_free h b | None => Ok h end ;;
  let (h2, b2) := h_alloc h1 n in
  Ok (h2, mkA n (Some b2)).
(** clear, :495-501. *)
Definition a_clear {A} (h : heap A) (o : aobj) : res (heap A * aobj) :=
  h1 <- match a_buf o with Some b => h_free h b | None => Ok h end ;;
  Ok (h1, mkA 0 None).
(** std::copy(src.begin(), src.end(), dst.begin()), element by element; begin()/end() assert a
    non-null buffer (:262-295) and dereferencing a null buffer is undefined. *)
Fixpoint h_copy {A} (h : heap A) (n : nat) (k : Z) (bs bd : nat) : res (heap A) :=
  match n with
  | O => Ok h
  | S m => v <- h_read h bs k ;; h' <- h_write h bd k v ;; h_copy h' m (k + 1) bs bd
  end.
Definition a_copy {A} (debug : bool) (h : heap A) (src dst : aobj) : res (heap A) :=
  match a_buf src, a_buf dst with
  | Some bs, Some bd => h_copy h (Z.to_nat (a_n src)) 0 bs bd
  | _, _ => if debug then Throw OutOfRangeError else UB
  end.
(** std::fill_n in ConstantDynamicArray::apply, :611-614. *)
Fixpoint h_fill {A} (h : heap A) (n : nat) (k : Z) (b : nat) (v : option A) : res (heap A) :=
  match n with
  | O => Ok h
  | S m => h' <- h_write h b k v ;; h_fill h' m (k + 1) b v
  end.

(** A client program: a set of array variables, all sharing the heap. *)
Record ast A := mkSt { st_heap : heap A; st_objs : list (option aobj) }.
Arguments mkSt {A}. Arguments st_heap {A}. Arguments st_objs {A}.

Inductive aop A :=
| ANew | ANewSized (n : Z) | ACopyNew (j : nat) | AAssign (i j : nat)
| AResize (i : nat) (n : Z) | AClear (i : nat) | AConst (i : nat) (n : Z) (v : A)
| ADestroy (i : nat)
| AWrite (i : nat) (k : Z) (v : A) | ARead (i : nat) (k : Z)
| AWriteAt (i : nat) (k : Z) (v : A) | AReadAt (i : nat) (k : Z) | ASize (i : nat).
Arguments ANew {A}. Arguments ANewSized {A}. Arguments ACopyNew {A}. Arguments AAssign {A}.
Arguments AResize {A}. Arguments AClear {A}. Arguments AConst {A}. Arguments ADestroy {A}.
Arguments AWrite {A}. Arguments ARead {A}. Arguments AWriteAt {A}. Arguments AReadAt {A}.
Arguments ASize {A}.

Definition obj_of {A} (s : ast A) (i : nat) : res aobj :=
  match nth_error (st_objs s) i with Some (Some o) => Ok o | _ => UB end.
Definition put {A} (s : ast A) (h : heap A) (i : nat) (o : option aobj) : ast A :=
  mkSt h (upd i o (st_objs s)).

Definition elem_read {A} (debug checked : bool) (s : ast A) (i : nat) (k : Z) : res (option A) :=
  o <- obj_of s i ;;
  if (checked || debug) && (a_n o <=? k) then Throw OutOfRangeError
  else match a_buf o with Some b => h_read (st_heap s) b k | None => UB end.
Definition elem_write {A} (debug checked : bool) (s : ast A) (i : nat) (k : Z) (v : A) : res (ast A) :=
  o <- obj_of s i ;;
  if (checked || debug) && (a_n o <=? k) then Throw OutOfRangeError
  else match a_buf o with
       | Some b => h <- h_write (st_heap s) b k (Some v) ;; Ok (mkSt h (st_objs s))
       | None => UB end.

Definition a_step_res {A} (debug : bool) (s : ast A) (o : aop A) : res (ast A * pout A) :=
  match o with
  | ANew => (* :156 *) Ok (mkSt (st_heap s) (st_objs s ++ [Some (mkA 0 None)]), ONone)
  | ANewSized n => (* :165-167 *)
      let (h, b) := h_alloc (st_heap s) n in
      Ok (mkSt h (st_objs s ++ [Some (mkA n (Some b))]), ONone)
  | ACopyNew j => (* :175-184 *)
      src <- obj_of s j ;;
      if a_n src =? 0 then Ok (mkSt (st_heap s) (st_objs s ++ [Some (mkA 0 None)]), ONone)
      else r <- a_resize (st_heap s) (mkA 0 None) (a_n src) ;;
           h <- a_copy debug (fst r) src (snd r) ;;
           Ok (mkSt h (st_objs s ++ [Some (snd r)]), ONone)
  | AAssign i j => (* operator=, :244-251; [src] is read again after [resize]: it may be *this *)
      dst <- obj_of s i ;; src <- obj_of s j ;;
      if a_n src =? 0 then r <- a_clear (st_heap s) dst ;; Ok (put s (fst r) i (Some (snd r)), ONone)
      else r <- a_resize (st_heap s) dst (a_n src) ;;
           let s1 := put s (fst r) i (Some (snd r)) in
           src1 <- obj_of s1 j ;; dst1 <- obj_of s1 i ;;
           h <- a_copy debug (st_heap s1) src1 dst1 ;;
           Ok (mkSt h (st_objs s1), ONone)
  | AResize i n => (* :483-489 *)
      o <- obj_of s i ;; r <- a_resize (st_heap s) o n ;; Ok (put s (fst r) i (Some (snd r)), ONone)
  | AClear i => (* :495-501 *)
      o <- obj_of s i ;; r <- a_clear (st_heap s) o ;; Ok (put s (fst r) i (Some (snd r)), ONone)
  | AConst i n v => (* blueprint apply, :611-614 *)
      o <- obj_of s i ;; r <- a_resize (st_heap s) o n ;;
      match a_buf (snd r) with
      | Some b => h <- h_fill (fst r) (Z.to_nat n) 0 b (Some v) ;; Ok (put s h i (Some (snd r)), ONone)
      | None => UB end
  | ADestroy i => (* destructor, :219-223 *)
      o <- obj_of s i ;;
      h <- match a_buf o with Some b => h_free (st_heap s) b | None => Ok (st_heap s) end ;;
      Ok (put s h i None, ONone)
  | AWrite i k v => s' <- elem_write debug false s i k v ;; Ok (s', ONone)
  | ARead i k => v <- elem_read debug false s i k ;; Ok (s, OVal v)
  | AWriteAt i k v => s' <- elem_write debug true s i k v ;; Ok (s', ONone)
  | AReadAt i k => v <- elem_read debug true s i k ;; Ok (s, OVal v)
  | ASize i => o <- obj_of s i ;; Ok (s, ONum (a_n o))
  end.

(** Exceptions come before any effect in these operations; the caller may carry on. *)
Definition a_step {A} (debug : bool) (s : ast A) (o : aop A) : option (ast A * pout A) :=
  match a_step_res debug s o with
  | Ok r => Some r | Throw e => Some (s, OExc e) | UB => None end.
Fixpoint a_run {A} (debug : bool) (s : ast A) (os : list (aop A)) : option (ast A * list (pout A)) :=
  match os with
  | [] => Some (s, [])
  | o :: os => match a_step debug s o with
               | None => None
               | Some (s', r) => match a_run debug s' os with
                                 | None => None | Some (s'', rs) => Some (s'', r :: rs) end
               end
  end.
Definition a_init {A} : ast A := mkSt [] [].

(** * Stencils — stencil/stencil.hpp:71-503.  Iterators are offsets from array.begin();
    forming and comparing out-of-range pointers is modelled as plain arithmetic on offsets
    (indices are unsigned, hence >= 0; sums that wrap the address space are not modelled). *)
Record stencil := mkSten { s_b : Z; s_e : Z }.
(** Array::stencil, :395-399: the index sum is unsigned 32 bit. Then the constructor's checks,
    stencil.hpp:113-121. *)
Definition sten_ctor (debug : bool) (n b e : Z) : res stencil :=
  _ <- assert_throw debug ((0 <=? b) && (b <=? n)) OutOfRangeError ;;
  _ <- assert_throw debug ((0 <=? e) && (e <=? n)) OutOfRangeError ;;
  Ok (mkSten b e).
Definition arr_stencil (debug : bool) (n start len : Z) : res stencil :=
  _ <- assert_throw debug (start <? n) OutOfRangeError ;;
  _ <- assert_throw debug (u32 (start + len) <=? n) OutOfRangeError ;;
  sten_ctor debug n start (start + len).
(** Stencil::stencil, stencil.hpp:163-168: checked against the array, not the stencil. *)
Definition sten_sub (debug : bool) (n : Z) (s : stencil) (start len : Z) : res stencil :=
  _ <- assert_throw debug (s_b s + start <? n) OutOfRangeError ;;
  _ <- assert_throw debug (s_b s + start + len <=? n) OutOfRangeError ;;
  sten_ctor debug n (s_b s + start) (s_b s + start + len).
(** resettle, stencil.hpp:181-188. *)
Definition sten_resettle (debug : bool) (n start len : Z) : res stencil :=
  sten_ctor debug n start (start + len).
(** size, stencil.hpp:476-477. *)
Definition sten_size (s : stencil) : Z := s_e s - s_b s.
(** operator[], stencil.hpp:398-420: note [<=] against array.end(). *)
Definition sten_get {C} (debug : bool) (a : list C) (s : stencil) (i : Z) : res C :=
  _ <- assert_throw debug (0 <=? s_b s + i) OutOfRangeError ;;
  _ <- assert_throw debug (s_b s + i <=? Zlen a) OutOfRangeError ;;
  match zget a (s_b s + i) with Some c => Ok c | None => UB end.
Definition sten_set {C} (debug : bool) (a : list C) (s : stencil) (i : Z) (c : C) : res (list C) :=
  _ <- assert_throw debug (0 <=? s_b s + i) OutOfRangeError ;;
  _ <- assert_throw debug (s_b s + i <=? Zlen a) OutOfRangeError ;;
  match zget a (s_b s + i) with Some _ => Ok (zset a (s_b s + i) c) | None => UB end.
(** at, stencil.hpp:431-466: [<= array.begin()] throws, in every build. *)
Definition sten_at {C} (a : list C) (s : stencil) (i : Z) : res C :=
  if s_b s + i <=? 0 then Throw OutOfRangeError
  else if Zlen a <=? s_b s + i then Throw OutOfRangeError
  else match zget a (s_b s + i) with Some c => Ok c | None => UB end.

(** * Guarded arrays — array_mem_check.hpp, array_dynamic_mem_check.hpp:496-640.
    Memory is the byte block [underrun(4) | elements | overrun(4)]. *)
Definition magic : Z := 204.   (* 0xCC, :557-560 *)
Definition guard_len : nat := 4. (* :549-556 *)
Record garr := mkG { g_mem : list Z; g_bytes : nat }. (* whole block; bytes of the element area *)
(** resize + initialiseMagicSections, :496-510, 577-586; element bytes are arbitrary ([junk]). *)
Definition g_new (junk : list Z) : garr :=
  mkG (repeat magic guard_len ++ junk ++ repeat magic guard_len) (length junk).
(** resize of an array in use, array_dynamic_mem_check.hpp:496-510: the old block is given back whatever is in it,
    a new one of the new size is taken and the guards are written again. *)
Definition g_resize (old : garr) (junk : list Z) : garr := g_new junk.
(** A raw byte store at offset [i] from the first element byte (negative: underrun area). *)
Definition g_store (g : garr) (i : Z) (b : Z) : garr := mkG (zset (g_mem g) (i + 4) b) (g_bytes g).
Definition any_differs (l : list Z) : bool := existsb (fun b => negb (b =? magic)) l.
(** bufferUnderRun :595-605, bufferOverRun :615-626, bufferOverFlow :637-640. *)
Definition g_underrun (g : garr) : bool := any_differs (firstn guard_len (g_mem g)).
Definition g_overrun (g : garr) : bool :=
  any_differs (firstn guard_len (skipn (guard_len + g_bytes g) (g_mem g))).
Definition g_overflow (g : garr) : bool := g_overrun g || g_underrun g.

(** * Comma initialisation — initialiser.hpp:83-99 (fixed size N), 154-172 (dynamic) *)
Record linit C := mkLI { li_mem : list C; li_pos : Z; li_cur : Z }.
Arguments mkLI {C}. Arguments li_mem {C}. Arguments li_pos {C}. Arguments li_cur {C}.
Definition raw_store {C} (a : list C) (i : Z) (c : C) : res (list C) :=
  match zget a i with Some _ => Ok (zset a i c) | None => UB end.
(** Fixed: the first store is unchecked (:84-90), dynamic: checked (:155-163). *)
Definition li_first {C} (debug dynamic : bool) (a : list C) (v : C) : res (linit C) :=
  _ <- assert_throw debug (negb dynamic || (1 <=? Zlen a)) OutOfRangeError ;;
  m <- raw_store a 0 v ;; Ok (mkLI m 1 1).
(** operator,: both versions, :92-99, 165-172. *)
Definition li_next {C} (debug : bool) (l : linit C) (v : C) : res (linit C) :=
  _ <- assert_throw debug (li_cur l <? Zlen (li_mem l)) OutOfRangeError ;;
  m <- raw_store (li_mem l) (li_pos l) v ;;
  Ok (mkLI m (li_pos l + 1) (li_cur l + 1)).
(** [a << v0, v1, v2, ...]: the stores done so far persist when a later one throws. *)
Fixpoint li_rest {C} (debug : bool) (l : linit C) (vs : list C) : list C * res unit :=
  match vs with
  | [] => (li_mem l, Ok tt)
  | v :: vs => match li_next debug l v with
               | Ok l' => li_rest debug l' vs
               | Throw e => (li_mem l, Throw e)
               | UB => (li_mem l, UB)
               end
  end.
Definition comma_init {C} (debug dynamic : bool) (a : list C) (v : C) (vs : list C) : list C * res unit :=
  match li_first debug dynamic a v with
  | Ok l => li_rest debug l vs
  | Throw e => (a, Throw e)
  | UB => (a, UB)
  end.
