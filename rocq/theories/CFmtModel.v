(** Model of the formatters of containers, matrices and transforms:
    /repo/ecl_containers/include/ecl/containers/common/formatters.hpp (FloatContainerFormatter, used for arrays and stencils of
    float and double by array/formatters.hpp:279-322 and stencil/formatters.hpp:102-117), array/formatters.hpp:106-213
    (ByteArrayFormatter), push_and_pop/formatters.hpp:105-173 (BytePushAndPopFormatter),
    /repo/ecl_linear_algebra/include/ecl/linear_algebra/eigen/formatters.hpp (FloatMatrixFormatter) and sophus/formatters.hpp
    (SE3fFormatter). They drive one Format<float> or Format<double>, which is FmtModel.v's [ffmt]. *)
From Coq Require Import Reals.
From Flocq Require Import Core.
From Verif Require Import Base Numerals ConvModel StreamModel FmtModel.
Open Scope Z_scope.

(** * The numbers *)

(** A finite floating point number: its sign bit and its absolute value (a real number). *)
Record fval := mkVal { neg : bool; mag : R }.
Definition num (v : fval) : R := (if neg v then - mag v else mag v)%R.
(** What snprintf writes for "%.pf": the value to p places, to nearest even. This is the C library's contract. *)
Definition places (p n : Z) : list Z := repeat 48 (Z.to_nat (p - Zlen (dec n))) ++ dec n.
Definition text_of (v : fval) (p : Z) : list Z :=
  let n := ZnearestE (mag v * IZR (10 ^ p)) in
  (if neg v then [45] else []) ++ dec (n / 10 ^ p) ++ (if p =? 0 then [] else 46 :: places p (n mod 10 ^ p)).

(** * FloatContainerFormatter, common/formatters.hpp:66-269 *)

(** The members, common/formatters.hpp:176-181. [c_wtmp]: width_ptr points to tmp_width. The container is NULL or has the given elements: it does
    not change between the call of the formatter and the streaming. *)
Record cfmt := mkCF { c_old : Z; c_tw : Z; c_pw : Z; c_wtmp : bool; c_fmt : ffmt; c_cont : option (list fval); c_ready : bool }.
(** Constructor, common/formatters.hpp:80-88; array/formatters.hpp:291, 318 passes its own p and w. *)
Definition cf_new (p w : Z) : cfmt := mkCF (-1) (-1) w false (ff_new w p RightAlign true) None false.
(** precision(p), 99; width(w), 110; operator()(p,w), 125. *)
Definition cf_precision (f : cfmt) (p : Z) : cfmt :=
  mkCF (c_old f) (c_tw f) (c_pw f) (c_wtmp f) (ff_prec (c_fmt f) p) (c_cont f) (c_ready f).
Definition cf_width (f : cfmt) (w : Z) : cfmt :=
  mkCF (c_old f) (c_tw f) w (c_wtmp f) (c_fmt f) (c_cont f) (c_ready f).
Definition cf_set (f : cfmt) (p w : Z) : cfmt := cf_width (cf_precision f p) w.
(** operator()(c), common/formatters.hpp:137; operator()(c,p,w), common/formatters.hpp:151-159. *)
Definition cf_call (f : cfmt) (l : list fval) : cfmt :=
  mkCF (c_old f) (c_tw f) (c_pw f) (c_wtmp f) (c_fmt f) (Some l) true.
Definition cf_tmp (f : cfmt) (l : list fval) (p w : Z) : cfmt :=
  mkCF (ff_cur_prec (c_fmt f)) w (c_pw f) true (ff_prec (c_fmt f) p) (Some l) true.

(** digits, common/formatters.hpp:192-209; the logarithm is exact. *)
Definition log10 (x : R) : R := (ln x / ln 10)%R.
Definition digits (prec : Z) (mn mx : R) : Z :=
  let min_digits := Zceil (log10 (Rabs mn + 1)) in
  let max_digits := Zceil (log10 (Rabs mx + 1)) in
  let actual := if min_digits <? max_digits then max_digits
                else if (min_digits =? 0) && (max_digits =? 0) then 1 else min_digits in
  (if Rlt_dec mn 0 then actual + 1 else actual) + (1 + prec).
(** The loop for the smallest and the largest element, common/formatters.hpp:227-237. *)
Fixpoint extremes (l : list fval) (mn mx : R) : R * R :=
  match l with
  | [] => (mn, mx)
  | v :: tl => extremes tl (if Rlt_dec (num v) mn then num v else mn) (if Rlt_dec mx (num v) then num v else mx)
  end.
(** Streaming elements, each followed by [after]. The specifier is the static array of formatFixed, floats.hpp:366. *)
Fixpoint print_all (debug : bool) (spec : list Z) (f : ffmt) (l : list fval) (after : list Z) : res (ffmt * list Z * list Z) :=
  match l with
  | [] => Ok (f, [], spec)
  | v :: tl =>
    r <- ff_print debug spec (ff_val f (text_of v)) ;;
    let '(f1, out1, spec1) := r in
    r2 <- print_all debug spec1 f1 tl after ;;
    let '(f2, out2, spec2) := r2 in
    Ok (f2, out1 ++ after ++ out2, spec2)
  end.
(** operator<<, common/formatters.hpp:215-269: the formatter afterwards, the text and the specifier. In a release build the assertion is not there:
    the container of an earlier call is streamed again. The first element of an empty container is out of range. *)
Definition cf_print (debug : bool) (spec : list Z) (f : cfmt) : res (cfmt * list Z * list Z) :=
  if debug && negb (c_ready f) then Throw UsageError
  else match c_cont f with
  | None => UB
  | Some l =>
    let w := if c_wtmp f then c_tw f else c_pw f in
    fm <- (if w =? -1 then
             match l with
             | [] => if debug then Throw OutOfRangeError else UB
             | v :: tl => let '(mn, mx) := extremes tl (num v) (num v) in Ok (ff_width (c_fmt f) (digits (ff_cur_prec (c_fmt f)) mn mx))
             end
           else Ok (ff_width (c_fmt f) w)) ;;
    r <- print_all debug spec fm l [32] ;;
    let '(fm1, out, spec1) := r in
    let fm2 := if c_old f =? -1 then fm1 else ff_prec fm1 (c_old f) in
    Ok (mkCF (-1) (c_tw f) (c_pw f) false fm2 (Some l) false, [91; 32] ++ out ++ [93], spec1)
  end.

(** * Byte arrays, array/formatters.hpp:106-213, and PushAndPop, push_and_pop/formatters.hpp:105-173 *)

(** The bytes of the window (begin_iterator to end_iterator) or of the container, None before the first call; ready_to_format. *)
Record bfmt := mkBF { b_data : option (list Z); b_ready : bool }.
Definition bf_new : bfmt := mkBF None false.
(** operator()(array), (stencil) and (begin,end). *)
Definition bf_call (l : list Z) : bfmt := mkBF (Some l) true.
(** operator<<, array/formatters.hpp:194-213, push_and_pop/formatters.hpp:156-173: the formatter is const, nothing is reset.
    Each byte goes through a local Format<CharType>(-1, NoAlign, Hex). *)
Fixpoint bytes_text (debug : bool) (conv : list Z) (t : fty) (f : fmt) (l : list Z) : res (list Z) :=
  match l with
  | [] => Ok []
  | b :: tl => r <- f_print debug t conv (f_val f b) ;; o <- bytes_text debug conv t (fst r) tl ;; Ok (snd r ++ [32] ++ o)
  end.
Definition bf_print (debug : bool) (conv : list Z) (t : fty) (f : bfmt) : res (list Z) :=
  if debug && negb (b_ready f) then Throw UsageError
  else match b_data f with
  | None => UB
  | Some l => o <- bytes_text debug conv t (fmt_new None (-1) NoAlign Hex) l ;; Ok ([91; 32] ++ o ++ [93])
  end.

(** * FloatMatrixFormatter, eigen/formatters.hpp:60-244, and SE3fFormatter, sophus/formatters.hpp:40-204 *)

(** What is streamed: literal texts and numbers. *)
Inductive piece := Txt (s : list Z) | Num (v : fval).
(** A matrix, eigen/formatters.hpp:220-234: rows with a line feed each, unless there is one row only. *)
Definition matrix_sheet (rows : list (list fval)) : list piece :=
  let nl := match rows with [_] => [] | _ => [Txt [10]] end in
  concat (map (fun r => concat (map (fun v => [Num v; Txt [32; 32]]) r) ++ nl) rows).
(** A transform, sophus/formatters.hpp:182-194: the translation and the unit quaternion. *)
Definition transform_sheet (x y z qx qy qz qw : fval) : list piece :=
  [Txt [91]; Txt [120; 58]; Num x; Txt [32; 32]; Txt [121; 58]; Num y; Txt [32; 32]; Txt [122; 58]; Num z; Txt [93];
   Txt [91]; Txt [120; 58]; Num qx; Txt [32; 32]; Txt [121; 58]; Num qy; Txt [32; 32]; Txt [122; 58]; Num qz; Txt [32; 32];
   Txt [119; 58]; Num qw; Txt [32; 32]; Txt [93]].
Fixpoint print_pieces (debug : bool) (spec : list Z) (f : ffmt) (l : list piece) : res (ffmt * list Z * list Z) :=
  match l with
  | [] => Ok (f, [], spec)
  | Txt s :: tl =>
    r2 <- print_pieces debug spec f tl ;;
    let '(f2, out2, spec2) := r2 in
    Ok (f2, s ++ out2, spec2)
  | Num v :: tl =>
    r <- ff_print debug spec (ff_val f (text_of v)) ;;
    let '(f1, out1, spec1) := r in
    r2 <- print_pieces debug spec1 f1 tl ;;
    let '(f2, out2, spec2) := r2 in
    Ok (f2, out1 ++ out2, spec2)
  end.
(** The members, eigen/formatters.hpp:188-193, sophus/formatters.hpp:150-155. *)
Record mfmt := mkMF { m_fmt : ffmt; m_tw : Z; m_tp : Z; m_tmp : bool; m_ready : bool; m_what : option (list piece) }.
(** Constructors, eigen/formatters.hpp:73-80 (a default Format, then its setters), sophus/formatters.hpp:50-57. *)
Definition mf_new_matrix (w p : Z) : mfmt := mkMF (ff_prec (ff_width (ff_new (-1) 4 NoAlign true) w) p) 0 0 false false None.
Definition mf_new_transform (w p : Z) : mfmt := mkMF (ff_new w p RightAlign true) w p false false None.
(** precision(p) and width(w), eigen/formatters.hpp:94-110, sophus/formatters.hpp:65-80. *)
Definition mf_precision (f : mfmt) (p : Z) : mfmt := mkMF (ff_prec (m_fmt f) p) (m_tw f) (m_tp f) (m_tmp f) (m_ready f) (m_what f).
Definition mf_width (f : mfmt) (w : Z) : mfmt := mkMF (ff_width (m_fmt f) w) (m_tw f) (m_tp f) (m_tmp f) (m_ready f) (m_what f).
(** operator()(x), eigen/formatters.hpp:140-144, and operator()(x,w,p), eigen/formatters.hpp:162-169; sophus/formatters.hpp:104-108, 125-132. *)
Definition mf_call (f : mfmt) (s : list piece) : mfmt := mkMF (m_fmt f) (m_tw f) (m_tp f) (m_tmp f) true (Some s).
Definition mf_tmp (f : mfmt) (s : list piece) (w p : Z) : mfmt := mkMF (m_fmt f) w p true true (Some s).
(** operator<<, eigen/formatters.hpp:196-244, sophus/formatters.hpp:158-204. *)
Definition mf_print (debug : bool) (spec : list Z) (f : mfmt) : res (mfmt * list Z * list Z) :=
  if debug && (match m_what f with None => true | Some _ => negb (m_ready f) end) then Throw UsageError
  else if negb (m_ready f) then Ok (f, [], spec)
  else match m_what f with
  | None => UB
  | Some s =>
    let prec := ff_cur_prec (m_fmt f) in
    let width := ff_cur_width (m_fmt f) in
    let fm := if m_tmp f then ff_width (ff_prec (m_fmt f) (m_tp f)) (m_tw f) else m_fmt f in
    r <- print_pieces debug spec fm s ;;
    let '(fm1, out, spec1) := r in
    let fm2 := if m_tmp f then ff_width (ff_prec fm1 prec) width else fm1 in
    Ok (mkMF fm2 (m_tw f) (m_tp f) false false (Some s), out, spec1)
  end.
