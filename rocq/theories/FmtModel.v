(** Model of ecl_formatters: number, float and string formatters.
    Files: /repo/ecl_formatters/include/ecl/formatters/{number,floats,strings}.hpp, src/lib/strings.cpp.
    The output stream is anything that appends what it is given; the result of printing is the text sent. *)
From Verif Require Import Base Numerals ConvModel StreamModel.
Open Scope Z_scope.

(** common.hpp:29-35 (Alignment).  [Garbage] stands for any other content of an uninitialised variable. *)
Inductive align := NoAlign | LeftAlign | RightAlign | CentreAlign | Garbage.
Definition is_none (a : align) : bool := match a with NoAlign => true | _ => false end.
(** pad, prePad, postPad: number.hpp:267-305, floats.hpp:403-441, strings.hpp:183-216. *)
Definition pad (n : Z) : list Z := repeat 32 (Z.to_nat n).
Definition pre_pad (a : align) (n : Z) : list Z :=
  if n <=? 0 then [] else match a with RightAlign => pad n | CentreAlign => pad (Z.quot n 2 + Z.rem n 2) | _ => [] end.
Definition post_pad (a : align) (n : Z) : list Z :=
  if n <=? 0 then [] else match a with LeftAlign => pad n | CentreAlign => pad (Z.quot n 2) | _ => [] end.
(** prePad(width - size); text; postPad(width - size).  The subtraction is an int operation.  The alignment
    is only read for a positive difference; [None] is an uninitialised variable. *)
Definition lay (a : option align) (w : Z) (s : list Z) (size : Z) : res (list Z) :=
  n <- int_op (w - size) ;;
  if n <=? 0 then Ok s
  else match a with None => UB | Some a => Ok (pre_pad a n ++ s ++ post_pad a n) end.

(** * Integers, number.hpp *)
Inductive base := Bin | Hex | Dec.
(** The integral types with a formatter (407-553): width, and the converter overload that formatDec selects
    (signed char promotes to int). *)
Inductive fty := FChar | FSChar | FUChar | FShort | FUShort | FInt | FUInt | FLong | FULong.
Definition fbits (t : fty) : Z :=
  match t with FChar | FSChar | FUChar => 8 | FShort | FUShort => 16 | FInt | FUInt => 32 | _ => 64 end.
Definition fsigned (t : fty) : bool :=
  match t with FChar | FSChar | FShort | FInt | FLong => true | _ => false end.
Definition fconv (t : fty) : ity :=
  match t with FChar => TChar | FSChar => TInt | FUChar => TUChar | FShort => TShort | FUShort => TUShort
             | FInt => TInt | FUInt => TUInt | FLong => TLong | FULong => TULong end.
Definition in_fty (t : fty) (n : Z) : Prop :=
  if fsigned t then - 2 ^ (fbits t - 1) <= n < 2 ^ (fbits t - 1) else 0 <= n < 2 ^ fbits t.

(** FormatNumber, 56-180.  [on_tmp]: width_, alignment_ and base_ point to the tmp_ members.  Those are not
    initialised by the constructor (68); [None] is indeterminate, reading it undefined. *)
Record fmt := mkFmt {
  prm_width : Z; prm_align : align; prm_base : base;
  tmp_width : Z; tmp_align : option align; tmp_base : base;
  on_tmp : bool; ready : bool; value : Z }.
(** Constructor, 68.  [ta]: what the uninitialised tmp_alignment contains. *)
Definition fmt_new (ta : option align) (w : Z) (a : align) (b : base) : fmt :=
  mkFmt w a b 0 ta Dec false false 0.
Definition cur_align (f : fmt) : option align := if on_tmp f then tmp_align f else Some (prm_align f).
Definition cur_width (f : fmt) : Z := if on_tmp f then tmp_width f else prm_width f.
Definition cur_base (f : fmt) : base := if on_tmp f then tmp_base f else prm_base f.
Definition put_width (f : fmt) (w : Z) : fmt :=
  if on_tmp f then mkFmt (prm_width f) (prm_align f) (prm_base f) w (tmp_align f) (tmp_base f) true (ready f) (value f)
  else mkFmt w (prm_align f) (prm_base f) (tmp_width f) (tmp_align f) (tmp_base f) false (ready f) (value f).
Definition put_align (f : fmt) (a : align) : fmt :=
  if on_tmp f then mkFmt (prm_width f) (prm_align f) (prm_base f) (tmp_width f) (Some a) (tmp_base f) true (ready f) (value f)
  else mkFmt (prm_width f) a (prm_base f) (tmp_width f) (tmp_align f) (tmp_base f) false (ready f) (value f).
(** base, 185-190. *)
Definition f_base (f : fmt) (b : base) : fmt :=
  if on_tmp f then mkFmt (prm_width f) (prm_align f) (prm_base f) (tmp_width f) (tmp_align f) b true (ready f) (value f)
  else mkFmt (prm_width f) (prm_align f) b (tmp_width f) (tmp_align f) (tmp_base f) false (ready f) (value f).
(** width, 192-200. *)
Definition f_width (f : fmt) (w : Z) : res fmt :=
  let f := put_width f w in
  if w >? 0 then
    match cur_align f with
    | None => UB
    | Some a => Ok (if is_none a then put_align f RightAlign else f)
    end
  else Ok f.
(** align, 202-211. *)
Definition f_align (f : fmt) (a : align) : fmt :=
  let f := put_align f a in if is_none a then put_width f 0 else f.
(** operator()(w,a,b), 212-219. *)
Definition f_set (f : fmt) (w : Z) (a : align) (b : base) : res fmt :=
  f1 <- f_width (f_base f b) w ;; Ok (f_align f1 a).
Definition set_value (f : fmt) (n : Z) : fmt :=
  mkFmt (prm_width f) (prm_align f) (prm_base f) (tmp_width f) (tmp_align f) (tmp_base f) (on_tmp f) true n.
Definition point (f : fmt) (tmp : bool) : fmt :=
  mkFmt (prm_width f) (prm_align f) (prm_base f) (tmp_width f) (tmp_align f) (tmp_base f) tmp (ready f) (value f).
(** operator()(n), 312-318. *)
Definition f_val (f : fmt) (n : Z) : fmt := set_value f n.
(** operator()(n,w,b), 327-338. *)
Definition f_tmp3 (f : fmt) (n w : Z) (b : base) : res fmt :=
  f1 <- f_width (f_base (point f true) b) w ;; Ok (set_value f1 n).
(** operator()(n,w,a,b), 342-354. *)
Definition f_tmp4 (f : fmt) (n w : Z) (a : align) (b : base) : res fmt :=
  f1 <- f_width (f_base (point f true) b) w ;; Ok (set_value (f_align f1 a) n).

(** Digits of formatBin, 231-234, and formatHex, 242, 247-251; >> of a negative value is arithmetic. *)
Definition bin_digit (v i : Z) : Z := if Z.land (Z.shiftr v i) 1 =? 0 then 48 else 49.
Definition hex_char (d : Z) : Z := if d <? 10 then 48 + d else 87 + d.
Definition hex_digit (v i : Z) : Z := hex_char (Z.land (Z.shiftr v (i * 4)) 15).
(** for (i = size-1; i >= 0; i--) *)
Fixpoint down (n : nat) (f : Z -> Z) : list Z :=
  match n with O => [] | S m => f (Z.of_nat m) :: down m f end.
(** formatBin, formatHex, formatDec, 224-265.  [conv]: the 250 cells of the static converter's buffer.
    A failed conversion (NULL passed to strlen) is undefined. *)
Definition fmt_text (t : fty) (conv : list Z) (b : base) (v : Z) : res (list Z * Z) :=
  match b with
  | Bin => Ok (48 :: 98 :: down (Z.to_nat (fbits t)) (bin_digit v), fbits t + 2)
  | Hex => Ok (48 :: 120 :: down (Z.to_nat (fbits t / 4)) (hex_digit v), fbits t / 4 + 2)
  | Dec =>
    r <- conv_cstr (fconv t) v 0 249 conv ;;
    match fst r with
    | None => UB
    | Some p => match cstr (skipn (Z.to_nat p) (snd r)) with Some s => Ok (s, Zlen s) | None => UB end
    end
  end.
(** operator<<, 360-396. *)
Definition f_print (debug : bool) (t : fty) (conv : list Z) (f : fmt) : res (fmt * list Z) :=
  if negb (ready f) then (if debug then Throw UsageError else Ok (f, []))
  else
    r <- fmt_text t conv (cur_base f) (value f) ;;
    s <- lay (cur_align f) (cur_width f) (fst r) (snd r) ;;
    Ok (mkFmt (prm_width f) (prm_align f) (prm_base f) (tmp_width f) (tmp_align f) (tmp_base f) false false (value f), s).

(** * Floats, floats.hpp *)
(** A value is represented by the text "%.pf" would give for it, for every precision p. *)
Definition ftext := Z -> list Z.
Record ffmt := mkFF {
  q_width : Z; q_prec : Z; q_align : align; q_fixed : bool;
  t_width : Z; t_prec : Z; t_align : align; t_fixed : bool;
  w_tmp : bool; p_tmp : bool; a_tmp : bool; b_tmp : bool;    (* where width_, precision_, alignment_, base_ point *)
  fready : bool; fvalue : ftext }.
(** Constructor, 73-82, 217: tmp_alignment is value-initialised (NoAlign). *)
Definition ff_new (w p : Z) (a : align) (fixed : bool) : ffmt :=
  mkFF w p a fixed 0 0 NoAlign true false false false false false (fun _ => []).
Definition ff_cur_align (f : ffmt) : align := if a_tmp f then t_align f else q_align f.
Definition ff_cur_width (f : ffmt) : Z := if w_tmp f then t_width f else q_width f.
Definition ff_cur_prec (f : ffmt) : Z := if p_tmp f then t_prec f else q_prec f.
Definition ff_cur_fixed (f : ffmt) : bool := if b_tmp f then t_fixed f else q_fixed f.
Definition ff_put_width (f : ffmt) (w : Z) : ffmt :=
  let '(mkFF qw qp qa qb tw tp ta tb wt pt at_ bt r v) := f in
  if wt then mkFF qw qp qa qb w tp ta tb wt pt at_ bt r v else mkFF w qp qa qb tw tp ta tb wt pt at_ bt r v.
Definition ff_put_align (f : ffmt) (a : align) : ffmt :=
  let '(mkFF qw qp qa qb tw tp ta tb wt pt at_ bt r v) := f in
  if at_ then mkFF qw qp qa qb tw tp a tb wt pt at_ bt r v else mkFF qw qp a qb tw tp ta tb wt pt at_ bt r v.
(** precision(p), 97. *)
Definition ff_prec (f : ffmt) (p : Z) : ffmt :=
  let '(mkFF qw qp qa qb tw tp ta tb wt pt at_ bt r v) := f in
  if pt then mkFF qw qp qa qb tw (wrap_s 32 p) ta tb wt pt at_ bt r v else mkFF qw (wrap_s 32 p) qa qb tw tp ta tb wt pt at_ bt r v.
(** base, 247-252. *)
Definition ff_base (f : ffmt) (b : bool) : ffmt :=
  let '(mkFF qw qp qa qb tw tp ta tb wt pt at_ bt r v) := f in
  if bt then mkFF qw qp qa qb tw tp ta b wt pt at_ bt r v else mkFF qw qp qa b tw tp ta tb wt pt at_ bt r v.
(** width, 257-266. *)
Definition ff_width (f : ffmt) (w : Z) : ffmt :=
  let f := ff_put_width f w in
  if (w >? 0) && is_none (ff_cur_align f) then ff_put_align f RightAlign else f.
(** align, 273-282. *)
Definition ff_align (f : ffmt) (a : align) : ffmt :=
  let f := ff_put_align f a in if is_none a then ff_put_width f 0 else f.
(** operator()(p,w), 288-294, operator()(p,w,a,b), 296-304. *)
Definition ff_set2 (f : ffmt) (p w : Z) : ffmt := ff_prec (ff_width f w) p.
Definition ff_set4 (f : ffmt) (p w : Z) (a : align) (b : bool) : ffmt := ff_base (ff_align (ff_prec (ff_width f w) p) a) b.
Definition ff_point (f : ffmt) (w p a b : bool) : ffmt :=
  let '(mkFF qw qp qa qb tw tp ta tb _ _ _ _ r v) := f in mkFF qw qp qa qb tw tp ta tb w p a b r v.
Definition ff_value (f : ffmt) (v : ftext) : ffmt :=
  let '(mkFF qw qp qa qb tw tp ta tb wt pt at_ bt _ _) := f in mkFF qw qp qa qb tw tp ta tb wt pt at_ bt true v.
(** operator()(n), 309-315. *)
Definition ff_val (f : ffmt) (v : ftext) : ffmt := ff_value f v.
(** operator()(n,p,w,a,b), 339-357: each pointer is moved just before its setter is called, so width(w)
    still sees the permanent alignment. *)
Definition ff_tmp5 (f : ffmt) (v : ftext) (p w : Z) (a : align) (b : bool) : ffmt :=
  let f := ff_width (ff_point f true (p_tmp f) (a_tmp f) (b_tmp f)) w in
  let f := ff_prec (ff_point f true true (a_tmp f) (b_tmp f)) p in
  let f := ff_align (ff_point f true true true (b_tmp f)) a in
  ff_value (ff_base (ff_point f true true true true) b) v.
(** operator()(n,p,w), 319-337: the permanent alignment and base are read after width(w). *)
Definition ff_tmp3 (f : ffmt) (v : ftext) (p w : Z) : ffmt :=
  let f := ff_width (ff_point f true (p_tmp f) (a_tmp f) (b_tmp f)) w in
  let f := ff_prec (ff_point f true true (a_tmp f) (b_tmp f)) p in
  let f := ff_align (ff_point f true true true (b_tmp f)) (q_align f) in
  ff_value (ff_base (ff_point f true true true true) (q_fixed f)) v.
(** The specifier written by formatFixed, 367-380; [spec]: the static six cells, initially "%.xff". *)
Definition ff_spec0 : list Z := [37; 46; 120; 102; 102; 0].
Definition ff_spec (spec : list Z) (p : Z) : list Z :=
  if p <? 10 then zset (zset (zset spec 2 (wrap_s 8 (48 + p))) 3 102) 4 0
  else if p <? 20 then zset (zset (zset spec 2 49) 3 (48 + (p - 10))) 4 102
  else zset (zset (zset spec 2 50) 3 48) 4 102.
(** printf's reading of "%.<digits>f"; anything else is not modelled (None). *)
Definition spec_prec (s : list Z) : option Z :=
  match cstr s with
  | Some (37 :: 46 :: r) =>
    match rev r with
    | 102 :: ds => if forallb is_digit ds then Some (dval (rev ds)) else None
    | _ => None
    end
  | _ => None
  end.
(** formatFixed, 363-393: snprintf keeps at most 29 characters. formatSci, 395-401, prints a fixed sentence. *)
Definition sci_text : list Z := [83; 99; 105; 101; 110; 116; 105; 102; 105; 99; 32; 102; 111; 114; 109; 97; 116; 32; 105; 115; 32; 110; 111; 116; 32; 121; 101; 116; 32; 115; 117; 112; 112; 111; 114; 116; 101; 100; 46; 10].
Definition ff_print (debug : bool) (spec : list Z) (f : ffmt) : res (ffmt * list Z * list Z) :=
  if negb (fready f) then (if debug then Throw UsageError else Ok (f, [], spec))
  else
    r <- (if ff_cur_fixed f then
            let spec' := ff_spec spec (ff_cur_prec f) in
            match spec_prec spec' with
            | None => UB
            | Some p =>
              let s := firstn 29 (fvalue f p) in
              o <- lay (Some (ff_cur_align f)) (ff_cur_width f) s (Zlen s) ;; Ok (o, spec')
            end
          else Ok (sci_text, spec)) ;;
    let '(mkFF qw qp qa qb tw tp ta tb wt pt at_ bt _ v) := f in
    let keep := negb wt in   (* 472: only if width_ points elsewhere *)
    Ok (mkFF qw qp qa qb tw tp ta tb false (if keep then pt else false) (if keep then at_ else false) (if keep then bt else false) false v,
        fst r, snd r).

(** * Strings, strings.hpp and strings.cpp *)
(** ready_to_format is not initialised by the constructor (strings.hpp:52): None. *)
Record sfmt := mkSF { s_width : Z; s_align : align; s_ready : option bool; s_text : list Z }.
Definition sf_new (w : Z) (a : align) : sfmt := mkSF w a None [].
Definition sfm_width (f : sfmt) (w : Z) : sfmt := mkSF w (s_align f) (s_ready f) (s_text f).           (* strings.hpp:62 *)
Definition sfm_align (f : sfmt) (a : align) : sfmt := mkSF (s_width f) a (s_ready f) (s_text f).       (* strings.hpp:68 *)
Definition sfm_set (f : sfmt) (w : Z) (a : align) : sfmt := sfm_align (sfm_width f w) a.               (* strings.cpp:31-36 *)
Definition sfm_val (f : sfmt) (s : list Z) : sfmt := mkSF (s_width f) (s_align f) (Some true) s.       (* strings.cpp:38-43 *)
Definition sfm_tmp2 (f : sfmt) (s : list Z) (w : Z) : sfmt := sfm_val (sfm_width f w) s.               (* strings.cpp:48-54 *)
Definition sfm_tmp3 (f : sfmt) (s : list Z) (w : Z) (a : align) : sfmt := sfm_val (sfm_align (sfm_width f w) a) s.  (* strings.cpp:55-62 *)
(** operator<<, strings.hpp:222-239; [int size = s.size()] for texts shorter than 2^31. *)
Definition sfm_print (debug : bool) (f : sfmt) : res (sfmt * list Z) :=
  match s_ready f with
  | None => UB
  | Some false => if debug then Throw UsageError else Ok (f, [])
  | Some true =>
    o <- lay (Some (s_align f)) (s_width f) (s_text f) (Zlen (s_text f)) ;;
    Ok (mkSF (s_width f) (s_align f) (Some false) (s_text f), o)
  end.
