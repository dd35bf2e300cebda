(** Model of Format<float> and Format<double> objects that are copied:
    /repo/ecl_formatters/include/ecl/formatters/floats.hpp:54-222 (FormatFloat, with the implicit copy constructor and copy
    assignment) and 247-483. The members width_, precision_ and alignment_ are pointers to the int and Alignment members of a
    formatter; a copy has the same pointers, which are those of the original.
    Simplified: the base is always Fixed; the format specifier is not modelled (it is in FmtModel.v, C87), so a precision of at
    least 0 is printed as it is, up to 20 places. *)
From Verif Require Import Base StreamModel FmtModel.
Open Scope Z_scope.

(** The width, precision and alignment members, prm_... or tmp_..., floats.hpp:215-217. *)
Record sets := mkSets { s_w : Z; s_p : Z; s_a : align }.
(** What a pointer points to: a formatter and which of the two groups of members. *)
Definition ref := (nat * bool)%type.
(** floats.hpp:215-223; [o_tmp]: the tmp_ members (tmp_width and tmp_precision are not initialised, but they are always written before
    they are read). *)
Record obj := mkObj { o_prm : sets; o_tmp : sets; at_w : ref; at_p : ref; at_a : ref; o_ready : bool; o_val : ftext }.
(** All formatters ever made; None once destroyed. *)
Definition heap := list (option obj).
Definition get (h : heap) (i : nat) : res obj := match nth_error h i with Some (Some o) => Ok o | _ => UB end.
Fixpoint upd (h : heap) (i : nat) (x : option obj) : heap :=
  match h, i with
  | [], _ => []
  | _ :: tl, O => x :: tl
  | y :: tl, S j => y :: upd tl j x
  end.
Definition put (h : heap) (i : nat) (o : obj) : heap := upd h i (Some o).
Definition group (o : obj) (tmp : bool) : sets := if tmp then o_tmp o else o_prm o.
Definition with_group (o : obj) (tmp : bool) (s : sets) : obj :=
  if tmp then mkObj (o_prm o) s (at_w o) (at_p o) (at_a o) (o_ready o) (o_val o)
  else mkObj s (o_tmp o) (at_w o) (at_p o) (at_a o) (o_ready o) (o_val o).
(** Reading and writing through a pointer. *)
Definition read (h : heap) (r : ref) : res sets := o <- get h (fst r) ;; Ok (group o (snd r)).
Definition write (h : heap) (r : ref) (f : sets -> sets) : res heap :=
  o <- get h (fst r) ;; Ok (put h (fst r) (with_group o (snd r) (f (group o (snd r))))).
Definition in_w (w : Z) (s : sets) : sets := mkSets w (s_p s) (s_a s).
Definition in_p (p : Z) (s : sets) : sets := mkSets (s_w s) p (s_a s).
Definition in_a (a : align) (s : sets) : sets := mkSets (s_w s) (s_p s) a.

(** Constructor, 73-82. *)
Definition make (h : heap) (w p : Z) (a : align) : heap :=
  h ++ [Some (mkObj (mkSets w p a) (mkSets 0 0 NoAlign) (length h, false) (length h, false) (length h, false) false (fun _ => []))].
(** The implicit copy constructor and copy assignment: every member, the pointers too. *)
Definition copy (h : heap) (i : nat) : res heap := o <- get h i ;; Ok (h ++ [Some o]).
Definition assign (h : heap) (i j : nat) : res heap := _ <- get h i ;; o <- get h j ;; Ok (put h i o).
(** Destructor, 84. *)
Definition destroy (h : heap) (i : nat) : res heap := _ <- get h i ;; Ok (upd h i None).
(** precision(p), 97. *)
Definition set_prec (h : heap) (i : nat) (p : Z) : res heap := o <- get h i ;; write h (at_p o) (in_p (wrap_s 32 p)).
(** width(w), 257-266. *)
Definition set_width (h : heap) (i : nat) (w : Z) : res heap :=
  o <- get h i ;; h1 <- write h (at_w o) (in_w w) ;;
  if w >? 0 then
    a <- read h1 (at_a o) ;;
    if is_none (s_a a) then write h1 (at_a o) (in_a RightAlign) else Ok h1
  else Ok h1.
(** align(a), 273-282. *)
Definition set_align (h : heap) (i : nat) (a : align) : res heap :=
  o <- get h i ;; h1 <- write h (at_a o) (in_a a) ;;
  if is_none a then write h1 (at_w o) (in_w 0) else Ok h1.
(** operator()(n), 309-315. *)
Definition call (h : heap) (i : nat) (v : ftext) : res heap :=
  o <- get h i ;; Ok (put h i (mkObj (o_prm o) (o_tmp o) (at_w o) (at_p o) (at_a o) true v)).
(** width_ = &tmp_width and so on. *)
Definition aim (h : heap) (i : nat) (w p a : bool) : res heap :=
  o <- get h i ;;
  Ok (put h i (mkObj (o_prm o) (o_tmp o) (if w then (i, true) else at_w o) (if p then (i, true) else at_p o) (if a then (i, true) else at_a o) (o_ready o) (o_val o))).
(** operator()(n,p,w), 319-337. *)
Definition call_tmp (h : heap) (i : nat) (v : ftext) (p w : Z) : res heap :=
  h1 <- aim h i true false false ;; h2 <- set_width h1 i w ;;
  h3 <- aim h2 i false true false ;; h4 <- set_prec h3 i p ;;
  h5 <- aim h4 i false false true ;; o <- get h5 i ;; h6 <- set_align h5 i (s_a (o_prm o)) ;;
  call h6 i v.
(** operator<<, 447-483, formatFixed, 363-393. *)
Definition print (debug : bool) (h : heap) (i : nat) : res (heap * list Z) :=
  o <- get h i ;;
  if negb (o_ready o) then (if debug then Throw UsageError else Ok (h, []))
  else
    p <- read h (at_p o) ;; w <- read h (at_w o) ;; a <- read h (at_a o) ;;
    let s := firstn 29 (o_val o (Z.min (s_p p) 20)) in
    out <- lay (Some (s_a a)) (s_w w) s (Zlen s) ;;
    let own := (i, false) in
    let moved := negb ((Nat.eqb (fst (at_w o)) i) && negb (snd (at_w o))) in
    Ok (put h i (if moved then mkObj (o_prm o) (o_tmp o) own own own false (o_val o)
                 else mkObj (o_prm o) (o_tmp o) (at_w o) (at_p o) (at_a o) false (o_val o)), out).
