(** What a command line prints about itself: StdOutput, ecl_command_line/include/ecl/command_line/std_output.hpp:103-220, and the texts that
    identify an argument (shortID, longID, toString of every kind of argument).  The objects, declarations and the wrapping of lines are those of
    CmdModel.v.  An output is a list of lines, each with the number of blanks before it. *)
From Coq Require Import String Ascii.
From Verif Require Import Base Numerals CmdModel.
Open Scope Z_scope.

(** The characters of a C string literal. *)
Fixpoint lit (s : string) : str := match s with EmptyString => [] | String c s' => Z.of_nat (nat_of_ascii c) :: lit s' end.

(** os << value, for the two types of CmdModel.v. *)
Definition val_text (v : val) : str := match v with VStr s => s | VInt z => num_str z end.
(** ValuesConstraint's constructor, values_constraint.hpp:86-109: [i > 0] is [tail]. *)
Fixpoint constraint_text (tail : bool) (vs : list val) : str :=
  match vs with [] => [] | v :: tl => (if tail then [c_bar] else []) ++ val_text v ++ constraint_text true tl end.
(** _typeDesc: the description given to the constructor, [given], or that of the constraint, value_arg.hpp:391, 406, multi_arg.hpp:367, 383. *)
Definition type_desc (given : str) (d : decl) : str := match d_allowed d with Some vs => constraint_text false vs | None => given end.

(** Arg::shortID(valueId), arg.hpp:396-415; [value] is _valueRequired. *)
Definition arg_short (delim : Z) (value : bool) (d : decl) (a : dyn) (t : str) : str :=
  let id := if seqb (d_flag d) [] then lit "--" ++ d_name d else lit "-" ++ d_flag d in
  let id := if value then id ++ [delim] ++ lit "<" ++ t ++ lit ">" else id in
  if a_req a then id else lit "[" ++ id ++ lit "]".
(** Arg::longID(valueId), arg.hpp:417-438. *)
Definition arg_long (value : bool) (d : decl) (t : str) : str :=
  let v := if value then lit " <" ++ t ++ lit ">" else [] in
  (if seqb (d_flag d) [] then [] else lit "-" ++ d_flag d ++ v ++ lit ",  ") ++ lit "--" ++ d_name d ++ v.
(** The overrides: value_arg.hpp:470-484, multi_arg.hpp:449-465, multi_switch_arg.hpp:172-184, unlabeled_value_arg.hpp:291-313,
    unlabeled_multi_arg.hpp:262-276.  The caller gives no argument: the parameter of the multi switch is then "val" (arg.hpp:296, 302). *)
Definition short_id (delim : Z) (d : decl) (a : dyn) (t : str) : str :=
  match d_kind d with
  | KSwitch => arg_short delim false d a (lit "val")
  | KMultiSwitch => arg_short delim false d a (lit "val") ++ lit " ... " ++ lit "val"
  | KValue _ => arg_short delim true d a t
  | KMulti _ => arg_short delim true d a t ++ lit " ... "
  | KUValue _ => lit "<" ++ t ++ lit ">"
  | KUMulti _ => lit "<" ++ t ++ lit "> ..."
  end.
Definition long_id (d : decl) (t : str) : str :=
  match d_kind d with
  | KSwitch => arg_long false d (lit "val")
  | KMultiSwitch => arg_long false d (lit "val") ++ lit "  (accepted multiple times) " ++ lit "val"
  | KValue _ => arg_long true d t
  | KMulti _ => arg_long true d t ++ lit "  (accepted multiple times)"
  | KUValue _ => lit "<" ++ t ++ lit ">"
  | KUMulti _ => lit "<" ++ t ++ lit ">  (accepted multiple times)"
  end.
(** Arg::toString, arg.hpp:493-503, which error messages use. *)
Definition to_string (d : decl) : str := (if seqb (d_flag d) [] then [] else lit "-" ++ d_flag d ++ lit " ") ++ lit "(" ++ lit "--" ++ d_name d ++ lit ")".

(** A command line as StdOutput sees it: the program's name, the version, the message; the arguments as (object, shortID(), longID(), getDescription()),
    and the exclusive groups as lists of such. *)
Record shown := mkSh { sh_obj : Z; sh_short : str; sh_long : str; sh_desc : str }.
Record cmd := mkCmd { k_prog : str; k_version : str; k_message : str; k_args : list shown; k_xor : list (list shown); k_help : bool }.
(** What the parser [p] with objects [h] shows; [given] are the type descriptions.  (CmdModel.v has tokens for the descriptions of the three built-in
    switches.) *)
Definition show_arg (delim : Z) (given : Z -> str) (xs : list (list Z)) (h : heap) (x : Z * decl) : shown :=
  let '(i, d) := x in let t := type_desc (given i) d in
  mkSh i (short_id delim d (h i) t) (long_id d t) (get_description (label_of xs i) d (h i)).
Definition find_arg (l : list shown) (i : Z) : list shown := filter (fun x => sh_obj x =? i) l.
Definition cmd_of (prog version message : str) (delim : Z) (given : Z -> str) (help : bool) (p : parser) (h : heap) : cmd :=
  let l := map (show_arg delim given (p_xor p) h) (p_args p) in
  mkCmd prog version message l (map (flat_map (find_arg l)) (p_xor p)) help.

(** XorHandler::contains, xor_handler.hpp:125-135. *)
Definition in_group (c : cmd) (x : shown) : bool := existsb (existsb (fun y => sh_obj x =? sh_obj y)) (k_xor c).
(** s[s.length()-1] = '}', std_output.hpp:167. *)
Definition close_group (s : str) : str := firstn (List.length s - 1) s ++ lit "}".
(** One group, 160-168: the text so far with the group added. *)
Definition add_group (s : str) (g : list shown) : str := close_group (s ++ lit " {" ++ flat_map (fun x => sh_short x ++ lit "|") g).
(** The text of _shortUsage, 157-173. *)
Definition short_text (c : cmd) : str :=
  fold_left add_group (k_xor c) (k_prog c ++ lit " ") ++ flat_map (fun x => if in_group c x then [] else lit " " ++ sh_short x) (k_args c).
(** _shortUsage, 149-182. *)
Definition short_usage (c : cmd) : res (list (Z * str)) :=
  let o := Zlen (k_prog c) + 2 in space_print (short_text c) 3 (if 75 / 2 <? o then 75 / 2 else o).

(** Lines one after another. *)
Definition then_print {A} (m k : res (list A)) : res (list A) := a <- m ;; b <- k ;; Ok (a ++ b).
Definition newline : list (Z * str) := [(0, [])].
(** An argument, 199-200, 212-213. *)
Definition long_one (x : shown) : res (list (Z * str)) := then_print (space_print (sh_long x) 3 3) (space_print (sh_desc x) 5 0).
(** A group, 195-205. *)
Fixpoint long_group (g : list shown) : res (list (Z * str)) :=
  match g with
  | [] => Ok []
  | [x] => long_one x
  | x :: tl => then_print (long_one x) (then_print (space_print (lit "-- OR --") 9 0) (long_group tl))
  end.
Fixpoint print_all {A} (f : A -> res (list (Z * str))) (l : list A) : res (list (Z * str)) :=
  match l with [] => Ok [] | x :: tl => then_print (f x) (print_all f tl) end.
(** _longUsage, 184-220. *)
Definition long_usage (c : cmd) : res (list (Z * str)) :=
  then_print (print_all (fun g => then_print (long_group g) (Ok (newline ++ newline))) (k_xor c))
  (then_print (print_all (fun x => if in_group c x then Ok [] else then_print (long_one x) (Ok newline)) (k_args c))
  (then_print (Ok newline) (space_print (k_message c) 3 0))).
(** usage, 112-124. *)
Definition usage (c : cmd) : res (list (Z * str)) :=
  then_print (Ok (newline ++ [(0, lit "USAGE: ")] ++ newline))
  (then_print (short_usage c)
  (then_print (Ok (newline ++ newline ++ [(0, lit "Where: ")] ++ newline))
  (then_print (long_usage c) (Ok newline)))).
(** version, 103-110. *)
Definition version (c : cmd) : list (Z * str) := newline ++ [(0, k_prog c ++ lit "  version: " ++ k_version c)] ++ newline.
(** failure, 126-147: ArgException::argId() and error(). *)
Definition failure (c : cmd) (arg_id error : str) : res (list (Z * str)) :=
  then_print (Ok ([(0, lit "PARSE ERROR: " ++ arg_id); (0, lit "             " ++ error)] ++ newline))
  (if k_help c then
     then_print (Ok [(0, lit "Brief USAGE: ")])
     (then_print (short_usage c) (Ok (newline ++ [(0, lit "For complete USAGE and HELP type: "); (0, lit "   " ++ k_prog c ++ lit " --help")] ++ newline)))
   else usage c).
