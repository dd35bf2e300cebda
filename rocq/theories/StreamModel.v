(** Model of ecl_streams: extraction from and insertion into text streams.
    Files: /repo/ecl_streams/include/ecl/streams/text_streams/{base,input,output}_text_stream.hpp.
    The device is a schedule of read results; [open()] is assumed true (the debug assertion on it is
    not modelled).  Characters are codes 0..127 of [char]. *)
From Verif Require Import Base Numerals ConvModel.
From Coq Require Import QArith.
Open Scope Z_scope.

(** What one [io_device.read(c)] does: one character (returns 1), nothing there (0), failure (negative).
    A finished schedule keeps returning 0, like a file at its end.  [c] is only changed by [Got]. *)
Inductive rd := Got (c : Z) | Nothing | Fail.
Definition dev := list rd.
Definition dread (d : dev) : rd * dev := match d with [] => (Nothing, []) | r :: d' => (r, d') end.

(** Result of one extraction: error flag to leave in the stream ([NoError] on success), the value then in
    the target variable, the device afterwards. *)
Record ext (V : Type) := mkExt { eflag : err; eval : V; edev : dev }.
Arguments mkExt {V}. Arguments eflag {V}. Arguments eval {V}. Arguments edev {V}.

Definition is_ws (c : Z) : bool := (c =? 32) || (c =? 10).
(** skipLeadingWhiteSpace, input_text_stream.hpp:499-511. None: failed (ReadError). *)
Fixpoint skip_ws (d : dev) : option Z * dev :=
  match d with
  | [] => (None, [])
  | Got c :: d' => if is_ws c then skip_ws d' else (Some c, d')
  | (Nothing | Fail) :: d' => (None, d')
  end.

(** The character variable after a failed skip: the last blank read, if any. *)
Fixpoint last_blank (c0 : Z) (d : dev) : Z :=
  match d with Got c :: d' => if is_ws c then last_blank c d' else c | _ => c0 end.

(** operator>>(char&), input_text_stream.hpp:165-184. [c0]: the variable before. *)
Definition get_char (raw : bool) (c0 : Z) (d : dev) : ext Z :=
  if raw then
    match dread d with
    | (Got c, d') => mkExt NoError c d'
    | (_, d') => mkExt ReadError c0 d'
    end
  else
    match skip_ws d with
    | (Some c, d') => mkExt NoError c d'
    | (None, d') => mkExt ReadError (last_blank c0 d) d'
    end.

(** The do-while of operator>>(std::string&), input_text_stream.hpp:205-211; every exit leaves NoError (212). *)
Fixpoint str_rest (d : dev) (acc : list Z) : list Z * dev :=
  match d with
  | [] => (acc, [])
  | Got c :: d' => if is_ws c then (acc, d') else str_rest d' (acc ++ [c])
  | (Nothing | Fail) :: d' => (acc, d')
  end.
(** operator>>(std::string&), input_text_stream.hpp:197-222. *)
Definition get_string (s0 : list Z) (d : dev) : ext (list Z) :=
  match skip_ws d with
  | (Some c, d') => let '(s, d'') := str_rest d' [c] in mkExt NoError s d''
  | (None, d') => mkExt ReadError s0 d'
  end.

Definition str_true : list (list Z) :=   (* "true" "TRUE" "True" *)
  [[116;114;117;101]; [84;82;85;69]; [84;114;117;101]].
Definition str_false : list (list Z) :=  (* "false" "FALSE" "False" *)
  [[102;97;108;115;101]; [70;65;76;83;69]; [70;97;108;115;101]].
Definition eqs (a b : list Z) : bool := if list_eq_dec Z.eq_dec a b then true else false.
(** operator>>(bool&), input_text_stream.hpp:431-453. *)
Definition get_bool (b0 : bool) (d : dev) : ext bool :=
  let e := get_string [] d in
  if negb (match eflag e with NoError => true | _ => false end) then mkExt (eflag e) b0 (edev e)
  else if existsb (eqs (eval e)) str_true then mkExt NoError true (edev e)
  else if existsb (eqs (eval e)) str_false then mkExt NoError false (edev e)
  else mkExt ConversionError b0 (edev e).

(** Bounds of the integral types (ecl_type_traits numeric_limits.hpp:70-244). *)
Definition tmax (t : ity) : Z := if isigned t then 2 ^ (ibits t - 1) - 1 else 2 ^ ibits t - 1.
Definition tmin (t : ity) : Z := if isigned t then - 2 ^ (ibits t - 1) else 0.
(** Storing an arithmetic result [x] in a Number: types narrower than int are computed in int and narrowed,
    unsigned types wrap, overflow of int/long/long long is undefined. *)
Definition num_op (t : ity) (x : Z) : res Z :=
  if (tmin t <=? x) && (x <=? tmax t) then Ok x
  else if isigned t then (if ibits t <? 32 then Ok (wrap_s (ibits t) x) else UB)
  else Ok (x mod 2 ^ ibits t).

(** The digit gathering loop, input_text_stream.hpp:615-626; [k] = 25 - j. None: read failure. *)
Fixpoint digs (k : nat) (c : Z) (d : dev) (acc : list Z) : option (list Z) * dev :=
  match k with
  | O => (Some acc, d)
  | S k' =>
    if is_digit c then
      match dread d with
      | (Fail, d') => (None, d')
      | (Nothing, d') => (Some (acc ++ [c]), d')
      | (Got c', d') => digs k' c' d' (acc ++ [c])
      end
    else (Some acc, d)
  end.
(** The accumulation loop, input_text_stream.hpp:632-642. Ok None: OutOfRangeError. *)
Fixpoint accum (t : ity) (ceiling : Z) (l : list Z) (number : Z) : res (option Z) :=
  match l with
  | [] => Ok (Some number)
  | c :: l' =>
    if number <? ceiling then n <- num_op t (10 * number + (c - 48)) ;; accum t ceiling l' n
    else Ok None
  end.
(** "Parse reg. integer", input_text_stream.hpp:614-645. *)
Definition reg_int (t : ity) (sign : Z) (c i0 : Z) (d : dev) : res (ext Z) :=
  match digs 25 c d [] with
  | (None, d') => Ok (mkExt ReadError i0 d')
  | (Some [], d') => Ok (mkExt ConversionError i0 d')
  | (Some l, d') =>
    n <- accum t (tmax t / 10) l 0 ;;
    match n with
    | None => Ok (mkExt OutOfRangeError i0 d')
    | Some n => v <- num_op t (sign * n) ;; Ok (mkExt NoError v d')
    end
  end.

Definition hex_val (c : Z) : option Z :=
  if (48 <=? c) && (c <=? 57) then Some (c - 48)
  else if (97 <=? c) && (c <=? 102) then Some (10 + c - 97)
  else if (65 <=? c) && (c <=? 70) then Some (10 + c - 65)
  else None.
(** The digit loop of parseHexInteger, input_text_stream.hpp:527-545. *)
Fixpoint hdigs (k : nat) (d : dev) (acc : list Z) : option (list Z) * dev :=
  match k with
  | O => (Some acc, d)
  | S k' =>
    match dread d with
    | (Fail, d') => (None, d')
    | (Nothing, d') => (Some acc, d')
    | (Got c, d') => match hex_val c with Some h => hdigs k' d' (acc ++ [h]) | None => (Some acc, d') end
    end
  end.
(** Its accumulation in a [short], input_text_stream.hpp:552-560; the narrowing is modulo 2^16. *)
Fixpoint haccum (l : list Z) (number : Z) : option Z :=
  match l with
  | [] => Some number
  | h :: l' => if number <? 3276 then haccum l' (wrap_s 16 (16 * number + h)) else None
  end.
(** Conversion of a short to the target type (560): value preserved or reduced modulo the width. *)
Definition from_short (t : ity) (x : Z) : Z :=
  if isigned t then (if ibits t <? 16 then wrap_s (ibits t) x else x) else x mod 2 ^ ibits t.
(** parseHexInteger, input_text_stream.hpp:518-563; the target is zeroed first (526). *)
Definition hex_int (t : ity) (d : dev) : ext Z :=
  match hdigs 25 d [] with
  | (None, d') => mkExt ReadError 0 d'
  | (Some [], d') => mkExt ReadError 0 d'
  | (Some l, d') =>
    match haccum l 0 with
    | None => mkExt OutOfRangeError 0 d'
    | Some n => mkExt NoError (from_short t n) d'
    end
  end.

(** getIntegerFromStream, input_text_stream.hpp:571-646, for the target type [t] holding [i0]. *)
Definition get_int (t : ity) (i0 : Z) (d : dev) : res (ext Z) :=
  match skip_ws d with
  | (None, d1) => Ok (mkExt ReadError i0 d1)
  | (Some c, d1) =>
    if c =? 45 then
      if tmin t =? 0 then reg_int t 1 c i0 d1
      else match dread d1 with
           | (Got c', d2) => reg_int t (-1) c' i0 d2
           | (_, d2) => Ok (mkExt ReadError i0 d2)
           end
    else if c =? 43 then
      match dread d1 with
      | (Got c', d2) => reg_int t 1 c' i0 d2
      | (_, d2) => Ok (mkExt ReadError i0 d2)
      end
    else if c =? 48 then
      match dread d1 with
      | (Nothing, d2) => Ok (mkExt NoError 0 d2)
      | (Fail, d2) => Ok (mkExt ReadError i0 d2)
      | (Got c', d2) =>
        if is_ws c' then Ok (mkExt NoError 0 d2)
        else if c' =? 120 then Ok (hex_int t d2)
        else reg_int t 1 c' i0 d2
      end
    else if c =? 120 then Ok (hex_int t d1)
    else reg_int t 1 c i0 d1
  end.

(** Digit loops of getFloatFromStream, input_text_stream.hpp:668-678 and 689-699: a digit is only counted
    once the read after it delivered another character.  Result: counted digits, last value of [c]. *)
Fixpoint fdigs (k : nat) (c : Z) (d : dev) (acc : list Z) : option (list Z * Z) * dev :=
  match k with
  | O => (Some (acc, c), d)
  | S k' =>
    if is_digit c then
      match dread d with
      | (Fail, d') => (None, d')
      | (Nothing, d') => (Some (acc, c), d')
      | (Got c', d') => fdigs k' c' d' (acc ++ [c])
      end
    else (Some (acc, c), d)
  end.
(** 679-681 and 700-703, in exact rational arithmetic: rounding of the floating point operations is not
    modelled; [tenth] is the value of the literal [0.1f]. *)
Definition fint (l : list Z) : Q := fold_left (fun a c => (10 * a + inject_Z (c - 48))%Q) l 0%Q.
Fixpoint ffrac (tenth mult : Q) (l : list Z) (number : Q) : Q :=
  match l with
  | [] => number
  | c :: l' => let m := (mult * tenth)%Q in ffrac tenth m l' (number + m * inject_Z (c - 48))%Q
  end.
(** After the sign: 663-716. *)
Definition reg_float (tenth : Q) (sign : Q) (c : Z) (f0 : Q) (d : dev) : ext Q :=
  match fdigs 25 c d [] with
  | (None, d1) => mkExt ReadError f0 d1
  | (Some (li, c1), d1) =>
    let number := fint li in
    if c1 =? 46 then
      match dread d1 with
      | (Got c2, d2) =>
        match fdigs 25 c2 d2 [] with
        | (None, d3) => mkExt ReadError f0 d3
        | (Some (ld, _), d3) =>
          if Zlen li + Zlen ld =? 0 then mkExt ConversionError f0 d3
          else mkExt NoError (sign * ffrac tenth 1 ld number)%Q d3
        end
      | (_, d2) => mkExt ReadError f0 d2
      end
    else if Zlen li =? 0 then mkExt ConversionError f0 d1
    else mkExt NoError (sign * number)%Q d1
  end.
(** getFloatFromStream, input_text_stream.hpp:650-717. *)
Definition get_float (tenth : Q) (f0 : Q) (d : dev) : ext Q :=
  match skip_ws d with
  | (None, d1) => mkExt ReadError f0 d1
  | (Some c, d1) =>
    if (c =? 45) || (c =? 43) then
      match dread d1 with
      | (Got c', d2) => reg_float tenth (if c =? 45 then -(1) else 1)%Q c' f0 d2
      | (_, d2) => mkExt ReadError f0 d2
      end
    else reg_float tenth 1%Q c f0 d1
  end.
(** The binary32 value nearest to 0.1: what [0.1f] denotes. *)
Definition tenth_f : Q := (13421773 # 134217728)%Q.

(** operator<< of an integer, output_text_stream.hpp:200-309: Converter<char*>(30) then a C-string write
    (174-177).  The stored text is what strlen finds. *)
Definition put_int (t : ity) (n : Z) (conv : list Z) : res (option (list Z)) :=
  r <- conv_cstr t n 0 29 conv ;;
  match fst r with
  | None => Ok None
  | Some p => Ok (cstr (skipn (Z.to_nat p) (snd r)))
  end.

(** * Two threads reading from different streams of the same type
    The digit buffer of getIntegerFromStream is a function-local static (input_text_stream.hpp:574), one
    per Device/Number pair, shared by all streams.  Small-step model of lines 614-646 (the digit loop and
    the accumulation loop) for one thread; [buf] is the shared array. *)
Inductive phase :=
| Gather (c : Z) (d : dev) (j : Z)          (* at the loop test, line 615 *)
| Sum (k j number : Z) (d : dev)            (* at the loop test, line 632 *)
| Finished (e : ext Z).
Definition pstep (t : ity) (sign i0 : Z) (buf : list Z) (p : phase) : res (list Z * phase) :=
  match p with
  | Gather c d j =>
    if is_digit c && (j <? 25) then
      let buf' := zset buf j c in
      match dread d with
      | (Fail, d') => Ok (buf', Finished (mkExt ReadError i0 d'))
      | (Nothing, d') => Ok (buf', Sum 0 (j + 1) 0 d')
      | (Got c', d') => Ok (buf', Gather c' d' (j + 1))
      end
    else if j =? 0 then Ok (buf, Finished (mkExt ConversionError i0 d))
    else Ok (buf, Sum 0 j 0 d)
  | Sum k j number d =>
    if k <? j then
      if number <? tmax t / 10 then
        match zget buf k with
        | Some c => n <- num_op t (10 * number + (c - 48)) ;; Ok (buf, Sum (k + 1) j n d)
        | None => UB
        end
      else Ok (buf, Finished (mkExt OutOfRangeError i0 d))
    else v <- num_op t (sign * number) ;; Ok (buf, Finished (mkExt NoError v d))
  | Finished e => Ok (buf, p)
  end.
(** A schedule: which of the two threads moves next. *)
Fixpoint prun (t : ity) (sched : list bool) (buf : list Z) (a b : phase) : res (phase * phase) :=
  match sched with
  | [] => Ok (a, b)
  | true :: s => r <- pstep t 1 0 buf a ;; prun t s (fst r) (snd r) b
  | false :: s => r <- pstep t 1 0 buf b ;; prun t s (fst r) a (snd r)
  end.
