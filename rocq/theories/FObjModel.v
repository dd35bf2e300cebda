(** Function objects, reference wrappers, parameters and singletons: ecl_utilities/include/ecl/utilities/function_objects.hpp:45-1370,
    references.hpp:38-180, parameter.hpp:56-111, singleton.hpp:51-66.

    Objects live in a list of cells; a cell whose object's lifetime has ended holds [None].  Pointers to functions and to member functions are
    indices into a program [prog], which says what each function does to the cells and what it returns.  Simplifications: values are integers
    tagged with their type; a function that returns void returns 0; calling through a template with the wrong number of arguments, which does
    not compile, is [UB]. *)
From Verif Require Import Base.

Definition loc := nat.
Definition ctype := nat.
Bind Scope nat_scope with loc ctype.
(** What is handed to a parameter: a value, or a reference. *)
Inductive arg := AV (v : Z) | AR (l : loc).
(** How a parameter is declared: T, T& or const T&. *)
Inductive mode := ByVal | ByRef | ByCRef.

(** The classes of function_objects.hpp.  [User c s]: an object of a class c of the caller's with operator(), in state s. *)
Inductive fobj :=
| User (c : nat) (s : Z)
| NFree (i : nat)                                     (* NullaryFreeFunction, 125-185 *)
| UFree (i : nat)                                     (* UnaryFreeFunction, 199-263 *)
| BFree (i : nat) (a : arg)                           (* BoundUnaryFreeFunction, 291-354: argument has the type of the parameter *)
| NMem (i : nat)                                      (* NullaryMemberFunction, 390-458 *)
| UMem (i : nat)                                      (* UnaryMemberFunction, 486-554 *)
| BNMem (i : nat) (o : loc)                           (* BoundNullaryMemberFunction, 585-654: holds C& *)
| PUMem (i : nat) (o : loc)                           (* PartiallyBoundUnaryMemberFunction, 684-714 *)
| BUMem (i : nat) (o : loc) (a : arg)                 (* BoundUnaryMemberFunction, 743-775 *)
| PBMem (i : nat) (o : loc)                           (* PartiallyBoundBinaryMemberFunction, 806-837 *)
| NCopy (g : fobj)                                    (* NullaryFunctionCopy, 854-919: holds a copy *)
| NRef (l : loc)                                      (* NullaryFunctionReference, 934-999: holds FunctionObject& *)
| UCopy (g : fobj)                                    (* UnaryFunctionCopy, 1015-1080 *)
| URef (l : loc).                                     (* UnaryFunctionReference, 1095-1161 *)

(** An object in memory. *)
Inductive cell := CVal (t : ctype) (v : Z) | CFun (f : fobj).
Definition heap := list (option cell).
Definition cell_at (h : heap) (l : loc) : option cell := match nth_error h l with Some (Some c) => Some c | _ => None end.
(** The end of a lifetime. *)
Definition kill (l : loc) (h : heap) : heap := upd l None h.

(** The functions of a program: free functions without and with a parameter, member functions with none, one and two parameters, operator() of
    the caller's classes (from the state of the object to its new state); the declarations of the parameters, whether member functions return
    void, and conversions between types. *)
Record prog := mkP {
  p_free0 : nat -> heap -> res (heap * Z);
  p_free1 : nat -> arg -> heap -> res (heap * Z);
  p_mem0 : nat -> loc -> heap -> res (heap * Z);
  p_mem1 : nat -> loc -> arg -> heap -> res (heap * Z);
  p_mem2 : nat -> loc -> arg -> arg -> heap -> res (heap * Z);
  p_user : nat -> Z -> list arg -> heap -> res (Z * heap * Z);
  p_par1 : nat -> mode * ctype;
  p_mpar1 : nat -> mode * ctype;
  p_void1 : nat -> bool;
  p_void2 : nat -> bool;
  p_conv : ctype -> ctype -> Z -> Z
}.

(** A member function may only be called on an object that lives: e.g. function_objects.hpp:414-416, 609. *)
Definition on_live (h : heap) (o : loc) (m : res (heap * Z)) : res (heap * Z) := match cell_at h o with Some _ => m | None => UB end.
Definition same (f : fobj) (m : res (heap * Z)) : res (fobj * heap * Z) := x <- m ;; Ok (f, fst x, snd x).

(** operator() : function_objects.hpp:146, 181, 222, 259, 312, 349, 414-416, 453-455, 509-511, 549-551, 609, 649, 708-710, 768-770, 831-833, 878, 915,
    957, 995, 1039, 1076, 1118, 1157.  The state of the function object is written back when its call returns.  [fuel] bounds the depth of wrappers:
    an object that refers to itself overflows the stack. *)
Fixpoint call (fuel : nat) (p : prog) (f : fobj) (args : list arg) (h : heap) : res (fobj * heap * Z) :=
  match fuel with
  | O => UB
  | S k =>
    match f, args with
    | User c s, _ => x <- p_user p c s args h ;; Ok (User c (fst (fst x)), snd (fst x), snd x)
    | NFree i, [] => same f (p_free0 p i h)
    | UFree i, [a] => same f (p_free1 p i a h)
    | BFree i a, [] => same f (p_free1 p i a h)
    | NMem i, [AR o] => same f (on_live h o (p_mem0 p i o h))
    | UMem i, [AR o; a] => same f (on_live h o (p_mem1 p i o a h))
    | BNMem i o, [] => same f (on_live h o (p_mem0 p i o h))
    | PUMem i o, [a] => same f (on_live h o (p_mem1 p i o a h))
    | BUMem i o a, [] => same f (on_live h o (p_mem1 p i o a h))
    | PBMem i o, [a; b] => same f (on_live h o (p_mem2 p i o a b h))
    | NCopy g, [] => x <- call k p g [] h ;; Ok (NCopy (fst (fst x)), snd (fst x), snd x)
    | UCopy g, [a] => x <- call k p g [a] h ;; Ok (UCopy (fst (fst x)), snd (fst x), snd x)
    | NRef l, [] =>
      match cell_at h l with
      | Some (CFun g) => x <- call k p g [] h ;; Ok (f, upd l (Some (CFun (fst (fst x)))) (snd (fst x)), snd x)
      | _ => UB
      end
    | URef l, [a] =>
      match cell_at h l with
      | Some (CFun g) => x <- call k p g [a] h ;; Ok (f, upd l (Some (CFun (fst (fst x)))) (snd (fst x)), snd x)
      | _ => UB
      end
    | _, _ => UB
    end
  end.

(** What a template gives: an object, or code that does not compile. *)
Inductive made (A : Type) := Made (a : A) | Ill.
Arguments Made {A} a.
Arguments Ill {A}.

(** Handing an object of the caller's, at l, to the constructor's parameter A a, which becomes the member argument: function_objects.hpp:1218, 1239,
    1339, 1366.  A const T& given another type is bound to a temporary that dies when generateFunctionObject returns; a T& accepts only a T that is
    not const. *)
Definition bind_arg (p : prog) (par : mode * ctype) (const : bool) (l : loc) (h : heap) : made (res (arg * heap)) :=
  match cell_at h l with
  | Some (CVal ti v) =>
    let w := if Nat.eqb ti (snd par) then v else p_conv p ti (snd par) v in
    match fst par with
    | ByVal => Made (Ok (AV w, h))
    | ByRef => if Nat.eqb ti (snd par) && negb const then Made (Ok (AR l, h)) else Ill
    | ByCRef => if Nat.eqb ti (snd par) then Made (Ok (AR l, h)) else Made (Ok (AR (length h), h ++ [None]))
    end
  | _ => Made UB
  end.
(** generateFunctionObject, function_objects.hpp:1180-1370.  The bound and partially bound classes for unary and binary member functions keep the
    pointer as void (C::* )(A) (713, 774, 836), so that they only compile when the member function returns void. *)
Definition gen_free0 (i : nat) : fobj := NFree i.
Definition gen_free1 (i : nat) : fobj := UFree i.
Definition gen_bound_free1 (p : prog) (i : nat) (const : bool) (l : loc) (h : heap) : made (res (fobj * heap)) :=
  match bind_arg p (p_par1 p i) const l h with
  | Ill => Ill
  | Made m => Made (x <- m ;; Ok (BFree i (fst x), snd x))
  end.
Definition gen_mem0 (i : nat) : fobj := NMem i.
Definition gen_mem1 (i : nat) : fobj := UMem i.
Definition gen_bound_mem0 (i : nat) (o : loc) : fobj := BNMem i o.
Definition gen_part_mem1 (p : prog) (i : nat) (o : loc) : made fobj := if p_void1 p i then Made (PUMem i o) else Ill.
Definition gen_bound_mem1 (p : prog) (i : nat) (o : loc) (const : bool) (l : loc) (h : heap) : made (res (fobj * heap)) :=
  if p_void1 p i then
    match bind_arg p (p_mpar1 p i) const l h with
    | Ill => Ill
    | Made m => Made (x <- m ;; Ok (BUMem i o (fst x), snd x))
    end
  else Ill.
(** PartiallyBoundBinaryMemberFunction(function, object), function_objects.hpp:817-820. *)
Definition make_part_mem2 (p : prog) (i : nat) (o : loc) : made fobj := if p_void2 p i then Made (PBMem i o) else Ill.
(** A call of a generator with a temporary of type t and value v, for example a literal: the temporary lives until the end of the full expression
    that contains the call.  A temporary is handed over as a reference to const. *)
Definition gen_bound_free1_tmp (p : prog) (i : nat) (t : ctype) (v : Z) (h : heap) : made (res (fobj * heap)) :=
  match gen_bound_free1 p i true (length h) (h ++ [Some (CVal t v)]) with
  | Ill => Ill
  | Made m => Made (x <- m ;; Ok (fst x, kill (length h) (snd x)))
  end.

(** ReferenceWrapper, references.hpp:84-131, with ref and cref, 144-159: the wrapper holds the address.  pointer(), 127, returns *obj_ptr, a T, as a
    T pointer, which does not compile unless a T converts to a pointer to T. *)
Definition rw_ref (l : loc) : loc := l.
Definition rw_reference (w : loc) : loc := w.
Definition rw_pointer (converts : bool) (w : loc) : made loc := if converts then Made w else Ill.
(** The constructors that take a ReferenceWrapper, function_objects.hpp:945-947, 985-987, 1106-1108. *)
Definition make_nref (w : loc) : fobj := NRef (rw_reference w).
(** UnaryFunctionReference<X,T,R>: with R not void X is the class of the function object, 1095-1122; with R void X is taken to be the class of the
    wrapper, 1135-1161, and X::type has to exist. *)
Inductive uarg := XFunction | XWrapper.
Definition make_uref (void : bool) (x : uarg) (w : loc) : made fobj :=
  match void, x with
  | false, XFunction => Made (URef (rw_reference w))
  | true, XWrapper => Made (URef (rw_reference w))
  | _, _ => Ill
  end.

(** Calls in a row on a function object. *)
Fixpoint calls (fuel : nat) (p : prog) (f : fobj) (l : list (list arg)) (h : heap) : res (fobj * heap * list Z) :=
  match l with
  | [] => Ok (f, h, [])
  | a :: tl =>
    x <- call fuel p f a h ;;
    y <- calls fuel p (fst (fst x)) tl (snd (fst x)) ;;
    Ok (fst (fst y), snd (fst y), snd x :: snd y)
  end.

(** Parameter<T>, parameter.hpp:56-111: the constructors, the two ways to set, the two ways to get, and copying. *)
Inductive pop (T : Type) := PAssign (v : T) | PCall (v : T) | PGet | PConvert.
Arguments PAssign {T} v.
Arguments PCall {T} v.
Arguments PGet {T}.
Arguments PConvert {T}.
Definition param_new {T} (dflt : T) : T := dflt.
Definition param_of {T} (v : T) : T := v.
Definition param_step {T} (s : T) (o : pop T) : T * option T :=
  match o with
  | PAssign v => (v, None)
  | PCall v => (v, None)
  | PGet => (s, Some s)
  | PConvert => (s, Some s)
  end.
Fixpoint param_run {T} (s : T) (l : list (pop T)) : T * list (option T) :=
  match l with
  | [] => (s, [])
  | o :: tl => let x := param_step s o in let y := param_run (fst x) tl in (fst y, snd x :: snd y)
  end.

(** Singleton<T>::instance(), singleton.hpp:59-63, called by any number of threads.  The static is initialised under the guard that C++11
    requires: one thread runs the constructor and the others wait; a constructor that throws leaves the static uninitialised. *)
Inductive guard := Fresh | Building (t : nat) | Built.
Inductive sthread := Out | Entering | Constructing | Returned.
Record sworld := mkSW { sw_guard : guard; sw_threads : nat -> sthread; sw_begun : nat; sw_made : nat }.
Definition put (f : nat -> sthread) (t : nat) (x : sthread) : nat -> sthread := fun u => if Nat.eqb u t then x else f u.
Inductive sevent := SEnter (t : nat) | SGo (t : nat) | SFinish (t : nat) | SFail (t : nat) | SAgain (t : nat).
(** [None]: the thread cannot do that now. *)
Definition s_step (w : sworld) (e : sevent) : option sworld :=
  match e with
  | SEnter t => match sw_threads w t with
                | Out => Some (mkSW (sw_guard w) (put (sw_threads w) t Entering) (sw_begun w) (sw_made w))
                | _ => None end
  | SGo t => match sw_threads w t, sw_guard w with
             | Entering, Fresh => Some (mkSW (Building t) (put (sw_threads w) t Constructing) (S (sw_begun w)) (sw_made w))
             | Entering, Built => Some (mkSW Built (put (sw_threads w) t Returned) (sw_begun w) (sw_made w))
             | _, _ => None end
  | SFinish t => match sw_threads w t, sw_guard w with
                 | Constructing, Building u => if Nat.eqb t u then Some (mkSW Built (put (sw_threads w) t Returned) (sw_begun w) (S (sw_made w))) else None
                 | _, _ => None end
  | SFail t => match sw_threads w t, sw_guard w with
               | Constructing, Building u => if Nat.eqb t u then Some (mkSW Fresh (put (sw_threads w) t Out) (sw_begun w) (sw_made w)) else None
               | _, _ => None end
  | SAgain t => match sw_threads w t with
                | Returned => Some (mkSW (sw_guard w) (put (sw_threads w) t Out) (sw_begun w) (sw_made w))
                | _ => None end
  end.
Definition s_start : sworld := mkSW Fresh (fun _ => Out) 0 0.
Fixpoint s_run (w : sworld) (l : list sevent) : option sworld :=
  match l with [] => Some w | e :: tl => match s_step w e with Some w1 => s_run w1 tl | None => None end end.
