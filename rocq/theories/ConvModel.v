(** Model of ecl_converters.  Characters and bytes are integers; memory is a list of cells.
    Forming (not dereferencing) a pointer one before a buffer is not treated as undefined. *)
From Verif Require Import Base Numerals.

(** * Byte arrays *)

(** IntegralToByteArray::operator(), ecl_converters/include/ecl/converters/to_byte_array.hpp:78-108.
    [bytes] = numeric_limits<Integral>::bytes; right shift of a negative value is arithmetic.
    Array cells hold the bit pattern of each element (0..255).  Result: array and the error flag set, if any. *)
Definition to_bytes (debug : bool) (bytes : Z) (arr : list Z) (input : Z) : res (list Z * option err) :=
  if negb (Zlen arr =? bytes) then
    if debug then Throw ConversionError else Ok (arr, Some ConversionError)
  else
    Ok (map (fun i => Z.shiftr input (8 * Z.of_nat i) mod 256) (seq 0 (Z.to_nat bytes)), None).

(** One step of the loop at from_byte_array.hpp:93-96.  The shift is done in [int] (32 bits): a shift by 32 or
    more is undefined; a result of 2^31 or more wraps to a negative int; [|=] converts it to the unsigned type
    of [bits] bits. *)
Definition from_step (bits : Z) (acc b i : Z) : res Z :=
  if 8 * i >=? 32 then UB
  else Ok (Z.lor acc (wrap_s 32 (Z.shiftl (b mod 256) (8 * i)) mod 2 ^ bits)).
Fixpoint from_loop (bits acc i : Z) (arr : list Z) : res Z :=
  match arr with
  | [] => Ok acc
  | b :: arr' => acc' <- from_step bits acc b i ;; from_loop bits acc' (i + 1) arr'
  end.
(** FromByteArray::operator(), from_byte_array.hpp:76-106. *)
Definition from_bytes (debug : bool) (bytes : Z) (signed : bool) (arr : list Z) : res (Z * option err) :=
  let e := Zlen arr >? bytes in
  if e && debug then Throw ConversionError else
  v <- from_loop (8 * bytes) 0 0 arr ;;
  Ok (if signed then wrap_s (8 * bytes) v else v, if e then Some ConversionError else None).

(** * Decimal strings *)

(** Memory store; outside the memory it is undefined. *)
Definition store (mem : list Z) (p c : Z) : res (list Z) :=
  if (0 <=? p) && (p <? Zlen mem) then Ok (zset mem p c) else UB.

(** The digit loop of convertUnsignedIntegral, char_strings.hpp:122-128.  [%] and [/] truncate;
    ['0'+lsd] is stored into a char.  Out of fuel = UB (never reached, see the proofs). *)
Fixpoint digit_loop (fuel : nat) (n : Z) (lo p : Z) (mem : list Z) : res (option Z * list Z) :=
  match fuel with
  | O => UB
  | S f =>
      let lsd := Z.rem n 10 in
      let n' := Z.quot n 10 in
      let p' := p - 1 in
      if p' <? lo then Ok (None, mem)
      else
        mem' <- store mem p' (wrap_s 8 (48 + lsd)) ;;
        if n' =? 0 then Ok (Some p', mem') else digit_loop f n' lo p' mem'
  end.
(** convertUnsignedIntegral, char_strings.hpp:115-130; [lo]/[hi] are buffer_begin/buffer_end;
    the result is the string's address or NULL. *)
Definition conv_unsigned (n lo hi : Z) (mem : list Z) : res (option Z * list Z) :=
  mem0 <- store mem hi 0 ;;
  digit_loop (S (Z.to_nat (Z.log2 (Z.abs n)))) n lo hi mem0.
(** [-1*number], char_strings.hpp:149: done in int for types narrower than int; overflow undefined. *)
Definition neg_op (bits n : Z) : res Z :=
  let w := Z.max 32 bits in if n =? - 2 ^ (w - 1) then UB else Ok (- n).
(** convertSignedIntegral, char_strings.hpp:140-157, for a signed type of [bits] bits. *)
Definition conv_signed (bits n lo hi : Z) (mem : list Z) : res (option Z * list Z) :=
  if n >=? 0 then conv_unsigned (n mod 2 ^ bits) lo hi mem
  else
    m <- neg_op bits n ;;
    r <- conv_unsigned (m mod 2 ^ bits) (lo + 1) hi mem ;;
    match fst r with
    | None => Ok (None, snd r)
    | Some s => mem' <- store (snd r) (s - 1) 45 ;; Ok (Some (s - 1), mem')
    end.
(** The integral types: width and signedness of the routine used.
    Converter<char*,char> (213-215) uses the *unsigned* routine on a signed char. *)
Inductive ity := TChar | TUChar | TShort | TUShort | TInt | TUInt | TLong | TULong | TLLong | TULLong.
Definition ibits (t : ity) : Z :=
  match t with TChar | TUChar => 8 | TShort | TUShort => 16 | TInt | TUInt => 32 | _ => 64 end.
Definition isigned (t : ity) : bool :=
  match t with TChar | TShort | TInt | TLong | TLLong => true | _ => false end.
(** Values of the type. *)
Definition in_ity (t : ity) (n : Z) : Prop :=
  if isigned t then - 2 ^ (ibits t - 1) <= n < 2 ^ (ibits t - 1) else 0 <= n < 2 ^ ibits t.
(** Converter<char*,T>::operator(), char_strings.hpp:213, 263, 311, 359, 402, 450, 499, 541, 583, 627. *)
Definition conv_cstr (t : ity) (n lo hi : Z) (mem : list Z) : res (option Z * list Z) :=
  match t with
  | TShort | TInt | TLong | TLLong => conv_signed (ibits t) n lo hi mem
  | _ => conv_unsigned n lo hi mem
  end.
(** CharStringBuffer(size), char_strings.hpp:77-85 (allocation succeeds): buffer 0..size-1. *)
Definition csb_new (size : Z) : res (Z * Z * list Z) :=
  mem <- store (repeat (-1) (Z.to_nat size)) (size - 1) 0 ;; Ok (0, size - 1, mem).

(** Converter<char*,bool>::operator(), char_strings.hpp:837-841: strcat onto the empty string at
    buffer_begin, without regard to buffer_end.  [lo] is buffer_begin. *)
Definition true_str : list Z := [116; 114; 117; 101].
Definition false_str : list Z := [102; 97; 108; 115; 101].
Fixpoint store_all (mem : list Z) (p : Z) (s : list Z) : res (list Z) :=
  match s with [] => Ok mem | c :: s' => mem' <- store mem p c ;; store_all mem' (p + 1) s' end.
Definition conv_bool (b : bool) (lo : Z) (mem : list Z) : res (Z * list Z) :=
  mem0 <- store mem lo 0 ;;
  mem1 <- store_all mem0 lo ((if b then true_str else false_str) ++ [0]) ;;
  Ok (lo, mem1).

(** Converter<char,unsigned int>, char.hpp:57-63, and Converter<char,int>, char.hpp:87-93.
    Result: character and flag set, if any. *)
Definition uint_to_char (debug : bool) (n : Z) : res (Z * option err) :=
  let bad := n >? 9 in
  if bad && debug then Throw ConversionError
  else Ok (wrap_s 8 (48 + n mod 10), if bad then Some ConversionError else None).
Definition int_to_char (debug : bool) (n : Z) : res (Z * option err) :=
  let bad := (n <? 0) || (n >? 9) in
  if bad && debug then Throw OutOfRangeError
  else Ok (wrap_s 8 (48 + Z.rem n 10), if bad then Some OutOfRangeError else None).
(** Converter<int,char>, integers.hpp:88-94. *)
Definition char_to_int (debug : bool) (c : Z) : res (Z * option err) :=
  let bad := (c <? 48) || (c >? 57) in
  if bad && debug then Throw ConversionError
  else Ok (c - 48, if bad then Some ConversionError else None).

(** Converter<std::string,int>, string.hpp:63-97: digits are written backwards into buffer[12]. *)
Fixpoint str_loop (fuel : nat) (rem p : Z) (mem : list Z) : res (Z * list Z) :=
  match fuel with
  | O => UB
  | S f =>
      d <- uint_to_char true (Z.rem rem 10) ;;
      mem' <- store mem (p - 1) (fst d) ;;
      let rem' := Z.quot rem 10 in
      if rem' >? 0 then str_loop f rem' (p - 1) mem' else Ok (p - 1, mem')
  end.
Definition int_to_string (buf : list Z) (n : Z) : res (list Z) :=
  mem0 <- store buf 11 0 ;;
  m <- (if n <? 0 then int_op (- n) else Ok n) ;;
  r <- str_loop (S (Z.to_nat (Z.log2 m))) m 11 mem0 ;;
  q <- (if n <? 0 then mem' <- store (snd r) (fst r - 1) 45 ;; Ok (fst r - 1, mem') else Ok r) ;;
  Ok (firstn (Z.to_nat (11 - fst q)) (skipn (Z.to_nat (fst q)) (snd q))).

(** Converter<int,std::string>, integers.hpp:57-66.  [stream >> i] follows the C++ standard: skip white
    space, optional sign, digits; no digits fails with 0; out of range fails with the nearest int.
    Then [stream.get(c)] must hit the end. *)
Definition is_ws (c : Z) : bool := (c =? 32) || ((9 <=? c) && (c <=? 13)).
Fixpoint skip_ws (s : list Z) : list Z :=
  match s with c :: s' => if is_ws c then skip_ws s' else s | [] => [] end.
Fixpoint take_digits (s : list Z) : list Z * list Z :=
  match s with
  | c :: s' => if is_digit c then let '(d, r) := take_digits s' in (c :: d, r) else ([], s)
  | [] => ([], [])
  end.
Definition read_int (s : list Z) : Z * bool * list Z :=
  let s1 := skip_ws s in
  let '(neg, s2) := match s1 with
                    | 45 :: s' => (true, s')
                    | 43 :: s' => (false, s')
                    | _ => (false, s1) end in
  let '(d, r) := take_digits s2 in
  if (length d =? 0)%nat then (0, false, r)
  else
    let v := if neg then - dval d else dval d in
    if v <? int_min then (int_min, false, r) else if v >? int_max then (int_max, false, r) else (v, true, r).
Definition string_to_int (debug : bool) (s : list Z) : res (Z * option err) :=
  let '(v, ok, r) := read_int s in
  let bad := negb ok || negb (length r =? 0)%nat in
  if bad && debug then Throw ConversionError else Ok (v, if bad then Some ConversionError else None).

(** * Hex strings *)

(** Converter<std::vector<char>,char*>, to_byte_array.hpp:283-402; input without its terminating null.
    [byte] is a char. *)
Inductive hstate := WZero | WX | WFirst | WSecond.
Definition hexval (c : Z) : option Z :=
  if (48 <=? c) && (c <=? 57) then Some (c - 48)
  else if (97 <=? c) && (c <=? 102) then Some (c - 97 + 10)
  else if (65 <=? c) && (c <=? 70) then Some (c - 65 + 10)
  else None.
Fixpoint hex_loop (debug : bool) (st : hstate) (byte : Z) (out : list Z) (s : list Z) : res (list Z * option err) :=
  match s with
  | [] => Ok (out, None)
  | c :: s' =>
      let bad : res (list Z * option err) := if debug then Throw ConversionError else Ok ([], Some ConversionError) in
      match st with
      | WZero => if c =? 48 then hex_loop debug WX byte out s'
                 else if c =? 32 then hex_loop debug WZero byte out s' else bad
      | WX => if c =? 120 then hex_loop debug WFirst byte out s' else bad
      | WFirst => match hexval c with
                  | Some v => hex_loop debug WSecond (wrap_s 8 (Z.shiftl v 4)) out s'
                  | None => bad end
      | WSecond => match hexval c with
                   | Some v => hex_loop debug WZero (wrap_s 8 (byte + v)) (out ++ [wrap_s 8 (byte + v)]) s'
                   | None => bad end
      end
  end.
(** The member [byte] may hold anything from an earlier call. *)
Definition hex_parse (debug : bool) (byte0 : Z) (s : list Z) : res (list Z * option err) :=
  hex_loop debug WZero byte0 [] s.

(** * Float formats *)

(** Constructors of Converter<char*,float> and <char*,double>, char_strings.hpp:652-672 and 741-761. *)
Definition fmt_new : list Z := [37; 46; 120; 102; 102; 0].
(** The specifier update in operator(), char_strings.hpp:690-709 and 779-798. *)
Definition fmt_set (fs : list Z) (precision : Z) : list Z :=
  if precision <? 0 then zset (zset fs 1 102) 2 0
  else if precision <? 10 then zset (zset (zset (zset fs 1 46) 2 (48 + precision)) 3 102) 4 0
  else if precision <? 20 then zset (zset (zset (zset fs 1 46) 2 49) 3 (48 + (precision - 10))) 4 102
  else zset (zset (zset (zset fs 1 46) 2 50) 3 48) 4 102.
(** The C string the library sees: up to the first null; [None] if there is none. *)
Fixpoint cstr (l : list Z) : option (list Z) :=
  match l with
  | [] => None
  | c :: l' => if c =? 0 then Some [] else match cstr l' with Some s => Some (c :: s) | None => None end
  end.

(** * Error state of converter objects (release builds) *)

(** ConverterBase, converter.hpp:31-38: [error_handler] is only ever assigned on failure. *)
Definition err_after (e : err) (r : option err) : err := match r with Some e' => e' | None => e end.
Fixpoint errs_after (e : err) (l : list (option err)) : err :=
  match l with [] => e | r :: l' => errs_after (err_after e r) l' end.
