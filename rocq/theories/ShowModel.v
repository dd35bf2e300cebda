(** Insertion of objects into text streams: the operators << of ecl_geometry (pascals_triangle.hpp, polynomial.hpp, tension_function.hpp,
    cubic_spline.hpp, tension_spline.hpp, smooth_linear_spline.hpp, cartesian_point.hpp, homogeneous_point.hpp, legacy_pose2d.hpp, legacy_pose3d.hpp)
    and of ecl_containers (arrays and stencils).  The stream is anything that appends what it is given; the result is the text sent.  Doubles are
    given by the text "%.pf" makes of them for every precision p, as in FmtModel.v; elements of arrays and points by the text the stream makes of them.
    flush() is not modelled here. *)
From Coq Require Import String Ascii.
From Verif Require Import Base Numerals ConvModel StreamModel FmtModel ArrayModel.
Open Scope Z_scope.

(** The characters of a C string literal. *)
Fixpoint lit (s : string) : list Z := match s with EmptyString => [] | String c s' => Z.of_nat (nat_of_ascii c) :: lit s' end.

(** * Pascal's triangles, pascals_triangle.hpp:270-337 (the specialisations for 3 and 5 give format the same width: 2 + 3/5 = 2, 2 + 5/5 = 3) *)
(** The inner loop, 276-279: [conv k] is what the converter's static buffer contains when the k-th number is printed. *)
Fixpoint tri_row (debug : bool) (conv : Z -> list Z) (coeffs : list Z) (todo : nat) (counter : Z) (f : fmt) (out : list Z) : res (Z * fmt * list Z) :=
  match todo with
  | O => Ok (counter, f, out)
  | S todo' =>
      match zget coeffs counter with
      | None => UB
      | Some c =>
          r <- f_print debug FInt (conv counter) (f_val f c) ;;
          tri_row debug conv coeffs todo' (counter + 1) (fst r) (out ++ snd r ++ lit " ")
      end
  end.
(** The outer loop, 275-281. *)
Fixpoint tri_rows (debug : bool) (conv : Z -> list Z) (coeffs : list Z) (i : nat) (counter : Z) (f : fmt) (out : list Z) : res (list Z) :=
  match i with
  | O => Ok out
  | S i' =>
      r <- tri_row debug conv coeffs i counter f out ;;
      tri_rows debug conv coeffs i' (fst (fst r)) (snd (fst r)) (snd r ++ [10])
  end.
(** operator <<, 270-285: [ta] is what the uninitialised member of the formatter contains. *)
Definition show_triangle (debug : bool) (ta : option align) (conv : Z -> list Z) (n : nat) (coeffs : list Z) : res (list Z) :=
  tri_rows debug conv coeffs (S n) 0 (FmtModel.fmt_new ta (2 + Z.quot (Z.of_nat n) 5) CentreAlign Dec) [].

(** * Polynomials and functions *)
(** What is inserted: a literal, a number of type unsigned int, or a double by way of the formatter [format]. *)
Inductive piece := Lit (s : list Z) | UInt (n : Z) | Num (v : ftext).
(** ostream << format(v): the formatter, the static cells of formatFixed (floats.hpp:366), the text. *)
Definition show_num (debug : bool) (st : ffmt * list Z) (v : ftext) : res (ffmt * list Z * list Z) :=
  r <- ff_print debug (snd st) (ff_val (fst st) v) ;; Ok (fst (fst r), snd r, snd (fst r)).
Fixpoint show_pieces (debug : bool) (st : ffmt * list Z) (l : list piece) : res (list Z * list Z) :=
  match l with
  | [] => Ok ([], snd st)
  | Lit s :: tl => r <- show_pieces debug st tl ;; Ok (s ++ fst r, snd r)
  | UInt n :: tl => r <- show_pieces debug st tl ;; Ok (dec n ++ fst r, snd r)
  | Num v :: tl => x <- show_num debug st v ;; r <- show_pieces debug (fst x) tl ;; Ok (snd x ++ fst r, snd r)
  end.
(** Format<double> format; format.precision(2), polynomial.hpp:455-456, tension_function.hpp:227-228 with the defaults of floats.hpp:73. *)
Definition two_decimals : ffmt := ff_prec (ff_new (-1) 4 NoAlign true) 2.
(** operator << of a polynomial, polynomial.hpp:458-461: the terms from i on. *)
Fixpoint poly_terms (i : Z) (cs : list ftext) : list piece :=
  match cs with [] => [] | c :: tl => Lit (lit " + ") :: Num c :: Lit (lit "x^") :: UInt i :: poly_terms (i + 1) tl end.
Definition poly_pieces (cs : list ftext) : list piece := match cs with [] => [] | c :: tl => Num c :: poly_terms 1 tl end.
Definition show_poly (debug : bool) (cells : list Z) (cs : list ftext) : res (list Z * list Z) := show_pieces debug (two_decimals, cells) (poly_pieces cs).

(** A tension function: its members, the quotients that are printed, and whether z_0 and z_f are zero; h is x_f - x_0. *)
Record tensf := mkTF { f_z0 : ftext; f_zf : ftext; f_x0 : ftext; f_xf : ftext; f_h : ftext; f_y0h : ftext; f_yfh : ftext; f_z0h : ftext; f_zfh : ftext;
  z0_zero : bool; zf_zero : bool }.
(** operator <<, tension_function.hpp:222-256. *)
Definition tension_pieces (g : tensf) : list piece :=
  (if z0_zero g && zf_zero g then [Lit (lit "0.0")]
   else Lit (lit "{") ::
     (if z0_zero g then [] else [Num (f_z0 g); Lit (lit "*sinh[tau("); Num (f_xf g); Lit (lit "-x)] + ")]) ++
     (if zf_zero g then [] else [Num (f_zf g); Lit (lit "*sinh[tau(x-"); Num (f_x0 g); Lit (lit ")]}/[tau^2 sinh("); Num (f_h g); Lit (lit "*tau)]")])) ++
  [Lit [10]; Lit (lit "        + ("); Num (f_y0h g); Lit (lit "-"); Num (f_z0h g); Lit (lit "/tau^2)("); Num (f_xf g); Lit (lit "-x)" ++ [10]);
   Lit (lit "                    + ("); Num (f_yfh g); Lit (lit "-"); Num (f_zfh g); Lit (lit "/tau^2)(x-"); Num (f_x0 g); Lit (lit ")" ++ [10])].
Definition show_tension (debug : bool) (cells : list Z) (g : tensf) : res (list Z * list Z) := show_pieces debug (two_decimals, cells) (tension_pieces g).

(** * Splines *)
(** for (i = 0; i < size; ++i) ostream << piece << "\n": cubic_spline.hpp:249-251, tension_spline.hpp:226-228. *)
Fixpoint show_lines {A} (show : list Z -> A -> res (list Z * list Z)) (cells : list Z) (l : list A) : res (list Z * list Z) :=
  match l with
  | [] => Ok ([], cells)
  | a :: tl => x <- show cells a ;; r <- show_lines show (snd x) tl ;; Ok (fst x ++ [10] ++ fst r, snd r)
  end.
Definition show_cubic_spline (debug : bool) (cells : list Z) (ps : list (list ftext)) : res (list Z * list Z) := show_lines (show_poly debug) cells ps.
Definition show_tension_spline (debug : bool) (cells : list Z) (fs : list tensf) : res (list Z * list Z) := show_lines (show_tension debug) cells fs.
(** Array::operator[] of a dynamic array (array_dynamic_mem_check.hpp, array_dynamic_no_mem_check.hpp; ArrayModel.v): checked in debug builds. *)
Definition element {A} (debug : bool) (l : list A) (i : Z) : res A :=
  match zget l i with Some a => Ok a | None => if debug then Throw OutOfRangeError else UB end.
(** The loop of the smoothed linear spline, smooth_linear_spline.hpp:181-184. *)
Fixpoint show_corners (debug : bool) (cells : list Z) (segments corners : list (list ftext)) (todo : nat) (i : Z) : res (list Z * list Z) :=
  match todo with
  | O => Ok ([], cells)
  | S todo' =>
      c <- element debug corners (i - 1) ;; x <- show_poly debug cells c ;;
      s <- element debug segments i ;; y <- show_poly debug (snd x) s ;;
      r <- show_corners debug (snd y) segments corners todo' (i + 1) ;;
      Ok (fst x ++ [10] ++ fst y ++ [10] ++ fst r, snd r)
  end.
(** operator <<, 175-187. *)
Definition show_smooth_spline (debug : bool) (cells : list Z) (segments corners : list (list ftext)) : res (list Z * list Z) :=
  s <- element debug segments 0 ;; x <- show_poly debug cells s ;;
  r <- show_corners debug (snd x) segments corners (Nat.pred (List.length segments)) 1 ;;
  Ok (fst x ++ [10] ++ fst r, snd r).

(** * Arrays, stencils, points, poses *)
(** Arrays of every kind, array_no_mem_check.hpp:363-377, array_mem_check.hpp:458-472, array_dynamic_no_mem_check.hpp:526-538,
    array_dynamic_mem_check.hpp:647-659: the loop from i on. *)
Fixpoint array_loop (get : Z -> res (list Z)) (todo : nat) (i : Z) : res (list Z) :=
  match todo with
  | O => Ok (lit "]")
  | S todo' => t <- get i ;; r <- array_loop get todo' (i + 1) ;; Ok (t ++ lit " " ++ r)
  end.
Definition show_array (debug : bool) (l : list (list Z)) : res (list Z) :=
  r <- array_loop (element debug l) (List.length l) 0 ;; Ok (lit "[ " ++ r).
(** A stencil, stencil.hpp:509-525: size() elements of it by operator[].  If the end precedes the beginning size() wraps to an enormous number: the
    loop is then followed until the first element past the array. *)
Definition show_stencil (debug : bool) (a : list (list Z)) (s : stencil) : res (list Z) :=
  r <- array_loop (sten_get debug a s) (Z.to_nat (if sten_size s <? 0 then Zlen a - s_b s + 1 else sten_size s)) 0 ;; Ok (lit "[ " ++ r).
(** Points, cartesian_point.hpp:278-282, 513-517; homogeneous_point.hpp:200-204 (its fourth coordinate is not printed). *)
Definition show_point3 (x y z : list Z) : list Z := lit "[ " ++ x ++ lit " " ++ y ++ lit " " ++ z ++ lit " ]".
Definition show_point2 (x y : list Z) : list Z := lit "[ " ++ x ++ lit " " ++ y ++ lit " ]".
(** format.width(6); format.precision(3), legacy_pose2d.hpp:476-478, legacy_pose3d.hpp:312-314. *)
Definition pose_format : ffmt := ff_prec (ff_width (ff_new (-1) 4 NoAlign true) 6) 3.
(** operator<< of a planar pose, legacy_pose2d.hpp:474-487. *)
Definition show_pose2 (debug : bool) (cells : list Z) (x y h : ftext) : res (list Z * list Z) :=
  show_pieces debug (pose_format, cells) [Lit (lit "[ "); Num x; Lit (lit " "); Num y; Lit (lit " "); Num h; Lit (lit " ]")].
(** operator<< of a spatial pose, legacy_pose3d.hpp:310-325: rows of the rotation and elements of the translation. *)
Definition row_pieces (row : list ftext) (t : ftext) : list piece :=
  Lit (lit "[ ") :: flat_map (fun v => [Num v; Lit (lit " ")]) row ++ [Lit (lit "] [ "); Num t; Lit (lit " ]" ++ [10])].
Definition show_pose3 (debug : bool) (cells : list Z) (rows : list (list ftext * ftext)) : res (list Z * list Z) :=
  show_pieces debug (pose_format, cells) (flat_map (fun p => row_pieces (fst p) (snd p)) rows).
