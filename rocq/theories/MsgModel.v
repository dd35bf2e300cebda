(** The exceptions of the command line parser: their texts, what they say about the argument, and which one a failing parse or declaration makes.
    ecl_command_line/include/ecl/command_line/arg_exception.hpp and the throw statements of the arguments and of CmdLine.  The parser is that of
    CmdModel.v, the texts identifying arguments those of UsageModel.v. *)
From Coq Require Import String Ascii.
From Verif Require Import Base Numerals CmdModel UsageModel.
Open Scope Z_scope.

(** ArgException, arg_exception.hpp:30-108: error text, argument and description of the type. *)
Record exn := mkX { x_text : str; x_id : str; x_type : str }.
(** The default of the parameter id, arg_exception.hpp:42, 127, 151, 177. *)
Definition no_id : str := lit "undefined".
(** ArgParseException, arg_exception.hpp:117-132. *)
Definition arg_parse (text id : str) : exn := mkX text id (lit "Exception found while parsing " ++ lit "the value the Arg has been passed.").
(** CmdLineParseException, arg_exception.hpp:141-158. *)
Definition cmd_parse (text id : str) : exn :=
  mkX text id (lit "Exception found when the values " ++ lit "on the command line do not meet " ++ lit "the requirements of the defined " ++ lit "Args.").
(** SpecificationException, arg_exception.hpp:167-183. *)
Definition specification (text id : str) : exn :=
  mkX text id (lit "Exception found when an Arg object " ++ lit "is improperly defined by the " ++ lit "developer.").
(** error(), arg_exception.hpp:58. *)
Definition error (x : exn) : str := x_text x.
(** argId(), arg_exception.hpp:63-69. *)
Definition arg_id (x : exn) : str := if seqb (x_id x) (lit "undefined") then lit " " else lit "Argument: " ++ x_id x.
(** typeDescription(), arg_exception.hpp:85-88. *)
Definition type_description (x : exn) : str := x_type x.

(** what(), arg_exception.hpp:74-79: one std::string for the whole process, assigned at every call; the pointer returned is into it.  The pointer is named
    by the number of the call: assigning invalidates every earlier pointer ([string.require]), and reading through one is undefined.  Calls from several
    threads at the same time are not modelled. *)
Record static_text := mkStat { st_calls : Z; st_text : str }.
Definition what (s : static_text) (x : exn) : static_text * Z := (mkStat (st_calls s + 1) (x_id x ++ lit " -- " ++ x_text x), st_calls s + 1).
Definition read_text (s : static_text) (p : Z) : res str := if p =? st_calls s then Ok (st_text s) else UB.

(** What an argument throws while it processes a word; [v] is the text handed to _extractValue.  switch_arg.hpp:174-175, value_arg.hpp:438-453, 486-508,
    multi_arg.hpp:410-423, 486-507, values_constraint.hpp:126-130.  The last three are CmdLine's own. *)
Definition arg_exn (d : decl) (v : str) (e : perr) : option exn :=
  match e with
  | EAlreadySet => Some (cmd_parse (lit "Argument already set!") (to_string d))
  | ENoDelimiter => Some (arg_parse (lit "Couldn't find delimiter for this argument!") (to_string d))
  | EMissingValue => Some (arg_parse (lit "Missing a value for this argument!") (to_string d))
  | EUnreadable => Some (arg_parse (lit "Couldn't read argument value from string '" ++ v ++ lit "'") (to_string d))
  | ETooManyValues => Some (arg_parse (lit "More than one valid value parsed from string '" ++ v ++ lit "'") (to_string d))
  | EConstraint => Some (cmd_parse (lit "Value '" ++ v ++ lit "' does not meet constraint: " ++ type_desc [] d) (to_string d))
  | ENoMatch | ERequiredMissing | ETooManyArgs => None
  end.
(** The text handed to _extractValue: value_arg.hpp:446-456, multi_arg.hpp:417-427, unlabeled_value_arg.hpp:283, unlabeled_multi_arg.hpp:247. *)
Definition value_text (g : glob) (d : decl) (w : str) (rest : list str) : str :=
  if unlabelled (d_kind d) then w
  else let '(_, value) := trim_flag (g_delim g) w in if seqb value [] then hd [] rest else value.

(** The inner loop, cmd_line.hpp:384-392: the exception that leaves it. *)
Fixpoint scan_exn (l : list (Z * decl)) (g : glob) (h : heap) (w : str) (rest : list str) : option exn :=
  match l with
  | [] => None
  | (i, d) :: l =>
      match process g d (h i) w rest with
      | PErr e => arg_exn d (value_text g d w rest) e
      | PNo w' a g' => scan_exn l g' (hset h i a) w' rest
      | _ => None
      end
  end.
(** The outer loop, cmd_line.hpp:379-408: the exception caught at 410 and given to CmdLineOutput::failure. *)
Fixpoint parse_exn (p : parser) (g : glob) (h : heap) (n : Z) (ws : list str) : option exn :=
  match ws with
  | [] => if n <? p_num p then Some (cmd_parse (lit "One or more required arguments missing!") no_id)
          else if p_num p <? n then Some (cmd_parse (lit "Too many arguments!") no_id)
          else None
  | w :: rest =>
      match scan (p_xor p) (p_args p) g h w rest with
      | SMatch took h' g' k =>
          if took then match rest with [] => None | _ :: rest' => parse_exn p g' h' (n + k) rest' end
          else parse_exn p g' h' (n + k) rest
      | SNone w' h' g' =>
          if empty_combined w' || g_ignore g' then parse_exn p g' h' n rest
          else Some (cmd_parse (lit "Couldn't find match for argument") w')
      | SErr _ => scan_exn (p_args p) g h w rest
      | SExit | SUB => None
      end
  end.

(** Arg's constructor, arg.hpp:371-390. *)
Definition ctor_exn (d : decl) : option exn :=
  if 1 <? Zlen (d_flag d) then Some (specification (lit "Argument flag can only be one character long") (to_string d))
  else if negb (seqb (d_name d) n_ignore) && (seqb (d_flag d) [c_dash] || seqb (d_flag d) [c_dash; c_dash] || seqb (d_flag d) [c_space])
  then Some (specification (lit "Argument flag cannot be either '" ++ lit "-" ++ lit "' or '" ++ lit "--" ++ lit "' or a space.") (to_string d))
  else if has c_dash (d_name d) || has c_space (d_name d)
  then Some (specification (lit "Argument name cannot contain either '" ++ lit "-" ++ lit "' or '" ++ lit "--" ++ lit "' or space.") (to_string d))
  else None.
(** The constructors: those of the unlabelled arguments ask the tracker afterwards, optional_unlabeled_tracker.hpp:39-48. *)
Definition construct_exn (g : glob) (d : decl) : option exn :=
  match ctor_exn d with
  | Some x => Some x
  | None => if unlabelled (d_kind d) && g_opt g
            then Some (specification (lit "You can't specify ANY Unlabeled Arg following an optional Unlabeled Arg") (to_string d)) else None
  end.
(** CmdLine::add, cmd_line.hpp:354-366; [given] is the description of the type. *)
Definition add_exn (p : parser) (h : heap) (d : decl) (given : str) : option exn :=
  if existsb (fun '(j, d') => clashes (label_of (p_xor p) j) d d' (h j)) (p_args p)
  then Some (specification (lit "Argument with same flag/name already exists!") (long_id d (type_desc given d))) else None.
