(** Model of ecl_command_line (a copy of TCLAP): declarations, matching of words against
    declarations, exclusive groups, the parse loop, and the line wrapping of the usage text.
    Files: /repo/ecl_command_line/include/ecl/command_line/{arg,switch_arg,multi_switch_arg,value_arg,
    multi_arg,unlabeled_value_arg,unlabeled_multi_arg,xor_handler,cmd_line,values_constraint,
    optional_unlabeled_tracker,ignore_rest_visitor,help_visitor,version_visitor,std_output}.hpp.
    Characters are their codes; a [std::string] is a list of codes. *)
From Verif Require Import Base Numerals.

Definition str := list Z.

Definition c_dash : Z := 45.   (* Arg::flagStartChar, arg.hpp:187 *)
Definition c_star : Z := 42.   (* Arg::blankChar, arg.hpp:182 *)
Definition c_space : Z := 32.
Definition c_comma : Z := 44.
Definition c_bar : Z := 124.
Definition c_nl : Z := 10.

(** std::string operator==. *)
Definition seqb (a b : str) : bool := if list_eq_dec Z.eq_dec a b then true else false.
(** std::find over a string / std::string::find of one character. *)
Definition has (c : Z) (s : str) : bool := existsb (Z.eqb c) s.

(** ignoreNameString, arg.hpp:204; "help", "version", "h": cmd_line.hpp:302, 310. *)
Definition n_ignore : str := [105;103;110;111;114;101;95;114;101;115;116].
Definition n_help : str := [104;101;108;112].
Definition n_version : str := [118;101;114;115;105;111;110].
Definition f_help : str := [104].

(** * Values and extraction *)

(** The value types modelled are std::string and int. *)
Inductive ty := TStr | TInt.
Inductive val := VStr (s : str) | VInt (n : Z).

Definition veqb (a b : val) : bool :=
  match a, b with
  | VStr s, VStr t => seqb s t
  | VInt n, VInt m => n =? m
  | _, _ => false
  end.

(** Standard library [istream >> int] in the decimal base (the only one used: nothing changes the stream's
    flags): white space skipped, optional sign, digits; [None] is failbit. The second component is the
    unread text, empty exactly when eofbit is set. *)
Definition is_ws (c : Z) : bool := (c =? 32) || ((9 <=? c) && (c <=? 13)).
Fixpoint skip_ws (s : str) : str :=
  match s with c :: t => if is_ws c then skip_ws t else s | [] => [] end.
Fixpoint take_digits (s : str) : str * str :=
  match s with
  | c :: t => if is_digit c then let '(d, r) := take_digits t in (c :: d, r) else ([], s)
  | [] => ([], [])
  end.
Definition read_int (s : str) : option (Z * str) :=
  let s := skip_ws s in
  let '(sg, s) := match s with
                  | c :: t => if c =? 45 then (-1, t) else if c =? 43 then (1, t) else (1, s)
                  | [] => (1, [])
                  end in
  let '(d, r) := take_digits s in
  match d with
  | [] => None
  | _ => let v := sg * dval d in if in_int v then Some (v, r) else None
  end.

(** Outcome of ValueExtractor::extractValue, value_arg.hpp:76-105: failure, more than one value, or at
    most one value ([None]: nothing was read, the target is not written). *)
Inductive xres := XFail | XMany | XVal (v : option val).

(** The loop of value_arg.hpp:87-104 (same text multi_arg.hpp:89-105). [fuel] is the length of the text plus
    one; every turn reads at least one character. *)
Fixpoint extract_loop (fuel : nat) (s : str) (n : Z) (last : option val) : xres :=
  match fuel with
  | O => XFail
  | S f =>
      match s with
      | [] => if 1 <? n then XMany else XVal last
      | _ => match read_int s with
             | None => XFail
             | Some (v, []) => if 1 <? n + 1 then XMany else XVal (Some (VInt v))
             | Some (v, r) => extract_loop f r (n + 1) (Some (VInt v))
             end
      end
  end.

(** extractValue for the two value types; the string specialisation, value_arg.hpp:138-142 and
    multi_arg.hpp:144-148, takes the text as it is. *)
Definition extract (t : ty) (s : str) : xres :=
  match t with
  | TStr => XVal (Some (VStr s))
  | TInt => extract_loop (S (length s)) s 0 None
  end.

(** * Declarations *)

Inductive kind :=
| KSwitch | KMultiSwitch | KValue (t : ty) | KMulti (t : ty) | KUValue (t : ty) | KUMulti (t : ty).

(** The visitors installed by CmdLine itself, cmd_line.hpp:291-326. Visitors supplied by the caller are not
    modelled. *)
Inductive vis := NoVis | VHelp | VVersion | VIgnore.

(** The constant part of an Arg, arg.hpp:52-122, value_arg.hpp:165-179, multi_arg.hpp:166-186: what the
    constructor was given. [d_allowed] is a ValuesConstraint, values_constraint.hpp:77. [_ignoreable] is
    true for the labelled kinds (arg.hpp:367) and is not read by the unlabelled ones. *)
Record decl := mkD {
  d_kind : kind; d_flag : str; d_name : str; d_desc : str; d_req : bool;
  d_allowed : option (list val); d_vis : vis;
  d_on : bool;          (* default of a SwitchArg *)
  d_count : Z;          (* initial value of a MultiSwitchArg *)
  d_default : val       (* default of a ValueArg *)
}.

(** The changing part. [a_vals] holds the one value of a ValueArg, or the values of a MultiArg. *)
Record dyn := mkA {
  a_req : bool; a_set : bool; a_xor : bool; a_more : bool;
  a_on : bool; a_count : Z; a_vals : list val
}.

(** Constructors: arg.hpp:353-370, switch_arg.hpp:108-115, multi_switch_arg.hpp:112-119,
    value_arg.hpp:350-393, multi_arg.hpp:324-385. *)
Definition fresh (d : decl) : dyn :=
  mkA (match d_kind d with KSwitch | KMultiSwitch => false | _ => d_req d end) false false false
      (d_on d) (d_count d)
      (match d_kind d with KValue _ | KUValue _ => [d_default d] | _ => [] end).

(** Process-wide variables: Arg::ignoreRestRef, Arg::delimiterRef (arg.hpp:44-50),
    OptionalUnlabeledTracker::alreadyOptionalRef (optional_unlabeled_tracker.hpp:35). *)
Record glob := mkG { g_ignore : bool; g_delim : Z; g_opt : bool }.
Definition glob0 : glob := mkG false c_space false.

Definition unlabelled (k : kind) : bool := match k with KUValue _ | KUMulti _ => true | _ => false end.
Definition is_switch (k : kind) : bool := match k with KSwitch | KMultiSwitch => true | _ => false end.
Definition is_multi (k : kind) : bool := match k with KMulti _ | KUMulti _ => true | _ => false end.

(** The checks of Arg's constructor, arg.hpp:371-390: [false] is a SpecificationException. The name test
    for "-" subsumes the one for "--". *)
Definition ctor_ok (flag name : str) : bool :=
  (Zlen flag <=? 1)
  && (seqb name n_ignore || negb (seqb flag [c_dash] || seqb flag [c_dash; c_dash] || seqb flag [c_space]))
  && negb (has c_dash name || has c_space name).

(** Constructing an argument. Unlabelled kinds pass an empty flag and consult the tracker:
    unlabeled_value_arg.hpp:203-266, unlabeled_multi_arg.hpp:178-233 (which always reports itself as
    required), optional_unlabeled_tracker.hpp:39-48. A declaration of an unlabelled kind with a flag cannot
    be written in C++ and is refused here. *)
Definition construct (g : glob) (d : decl) : res glob :=
  if negb (ctor_ok (d_flag d) (d_name d)) then Throw ConstructorError
  else if unlabelled (d_kind d) && negb (seqb (d_flag d) []) then Throw ConstructorError
  else if unlabelled (d_kind d) then
    if g_opt g then Throw ConstructorError
    else Ok (if (match d_kind d with KUMulti _ => true | _ => d_req d end)
             then g else mkG (g_ignore g) (g_delim g) true)
  else Ok g.

(** Arg::isRequired, arg.hpp:465, and the override MultiArg::isRequired, multi_arg.hpp:471-484. *)
Definition is_required (d : decl) (a : dyn) : bool :=
  if is_multi (d_kind d) then a_req a && negb (1 <? Zlen (a_vals a)) else a_req a.

(** Arg::isSet, arg.hpp:469-475. *)
Definition is_set (a : dyn) : bool := a_set a && negb (a_xor a).

(** Arg::getDescription, arg.hpp:448-459, up to the label text, which is one of "required" and
    "OR required" (the label is an input here). *)
Definition get_description (label : str) (d : decl) (a : dyn) : str :=
  if a_req a then [40] ++ label ++ [41; 32; 32] ++ d_desc d else d_desc d.

(** Arg::operator==, arg.hpp:440-446; UnlabeledValueArg / UnlabeledMultiArg::operator==,
    unlabeled_value_arg.hpp:318-325, unlabeled_multi_arg.hpp:278-285 (dispatched on the new argument). *)
Definition clashes (label : str) (d : decl) (d' : decl) (a' : dyn) : bool :=
  if unlabelled (d_kind d) then
    seqb (d_name d) (d_name d') || seqb (d_desc d) (get_description label d' a')
  else
    (negb (seqb (d_flag d) []) && seqb (d_flag d) (d_flag d')) || seqb (d_name d) (d_name d').

(** An argument object is named by a number (its address). The heap gives its changing part. *)
Definition heap := Z -> dyn.
Definition hset (h : heap) (i : Z) (a : dyn) : heap := fun j => if j =? i then a else h j.

(** CmdLine, cmd_line.hpp:51-146: the argument list in search order, the exclusive groups and
    _numRequired. [p_next] is the number the next argument object gets. *)
Record parser := mkP {
  p_args : list (Z * decl); p_xor : list (list Z); p_num : Z; p_next : Z
}.

Definition lbl_req : str := [114;101;113;117;105;114;101;100].                     (* "required" *)
Definition lbl_or : str := [79;82;32;114;101;113;117;105;114;101;100].             (* "OR required" *)
Definition label_of (xs : list (list Z)) (i : Z) : str :=
  if existsb (existsb (Z.eqb i)) xs then lbl_or else lbl_req.

(** CmdLine::add, cmd_line.hpp:354-366; addToList, arg.hpp:558-561 (front),
    unlabeled_value_arg.hpp:327-331 and unlabeled_multi_arg.hpp:287-291 (back). *)
Definition add (p : parser) (h : heap) (i : Z) (d : decl) : res parser :=
  if existsb (fun '(j, d') => clashes (label_of (p_xor p) j) d d' (h j)) (p_args p)
  then Throw InvalidArgError
  else Ok (mkP (if unlabelled (d_kind d) then p_args p ++ [(i, d)] else (i, d) :: p_args p)
               (p_xor p)
               (if is_required d (h i) then p_num p + 1 else p_num p)
               (p_next p)).

(** What a program does to set up its parser: declare single arguments or exclusive groups. *)
Inductive dcl := DOne (d : decl) | DXor (ds : list decl).

(** Construct the objects of a group (they exist before xorAdd is called). *)
Fixpoint construct_all (g : glob) (h : heap) (i : Z) (ds : list decl) : res (glob * heap) :=
  match ds with
  | [] => Ok (g, h)
  | d :: ds => g' <- construct g d ;; construct_all g' (hset h i (fresh d)) (i + 1) ds
  end.

Definition force_required (a : dyn) : dyn :=
  mkA true (a_set a) (a_xor a) (a_more a) (a_on a) (a_count a) (a_vals a).

(** The loop of CmdLine::xorAdd, cmd_line.hpp:332-338; forceRequired, arg.hpp:544-547. *)
Fixpoint add_all (p : parser) (h : heap) (i : Z) (ds : list decl) : res (parser * heap) :=
  match ds with
  | [] => Ok (p, h)
  | d :: ds =>
      let h := hset h i (force_required (h i)) in
      p' <- add p h i d ;; add_all p' h (i + 1) ds
  end.

Fixpoint ids_from (i : Z) (n : nat) : list Z :=
  match n with O => [] | S n => i :: ids_from (i + 1) n end.

Definition with_next (p : parser) (i : Z) : parser := mkP (p_args p) (p_xor p) (p_num p) i.

(** One declaration. CmdLine::xorAdd, cmd_line.hpp:328-339; XorHandler::add, xor_handler.hpp:89-92. *)
Definition declare (g : glob) (p : parser) (h : heap) (c : dcl) : res (glob * parser * heap) :=
  match c with
  | DOne d =>
      let i := p_next p in
      g' <- construct g d ;;
      let h := hset h i (fresh d) in
      p' <- add p h i d ;;
      Ok (g', with_next p' (i + 1), h)
  | DXor ds =>
      let i := p_next p in
      gh <- construct_all g h i ds ;;
      let '(g', h) := gh in
      let p := mkP (p_args p) (p_xor p ++ [ids_from i (length ds)]) (p_num p) (p_next p) in
      ph <- add_all p h i ds ;;
      let '(p', h) := ph in
      Ok (g', with_next p' (i + Zlen ds), h)
  end.

Fixpoint declare_all (g : glob) (p : parser) (h : heap) (cs : list dcl) : res (glob * parser * heap) :=
  match cs with
  | [] => Ok (g, p, h)
  | c :: cs => r <- declare g p h c ;; let '(g, p, h) := r in declare_all g p h cs
  end.

Definition no_val : val := VInt 0.
Definition d_help : decl := mkD KSwitch f_help n_help [1] false None VHelp false 0 no_val.
Definition d_version : decl := mkD KSwitch [] n_version [2] false None VVersion false 0 no_val.
Definition d_ignore : decl := mkD KSwitch [c_dash] n_ignore [3] false None VIgnore false 0 no_val.

(** CmdLine::CmdLine and _constructor, cmd_line.hpp:257-270, 291-326, followed by the program's
    declarations. The description texts of the three built-in switches are replaced by tokens: they only
    matter for clashes with the description of an unlabelled argument. *)
Definition build (g : glob) (delim : Z) (help : bool) (cs : list dcl) : res (glob * parser * heap) :=
  let g := mkG (g_ignore g) delim (g_opt g) in
  declare_all g (mkP [] [] 0 0) (fun _ => fresh d_ignore)
    ((if help then [DOne d_help; DOne d_version] else []) ++ [DOne d_ignore] ++ cs).

(** * Matching a word *)

(** Arg::argMatches, arg.hpp:484-491. *)
Definition arg_matches (d : decl) (w : str) : bool :=
  (seqb w (c_dash :: d_flag d) && negb (seqb (d_flag d) [])) || seqb w (c_dash :: c_dash :: d_name d).

(** The scan of Arg::trimFlag, arg.hpp:516-522: text before and after the first delimiter. *)
Fixpoint cut (delim : Z) (w : str) : option (str * str) :=
  match w with
  | [] => None
  | c :: t => if c =? delim then Some ([], t)
              else match cut delim t with Some (a, b) => Some (c :: a, b) | None => None end
  end.

(** Arg::trimFlag, arg.hpp:514-530: (flag, value). *)
Definition trim_flag (delim : Z) (w : str) : str * str :=
  match cut delim w with
  | Some (a, b) => if 1 <? Zlen a then (a, b) else (w, [])
  | None => (w, [])
  end.

(** Arg::_hasBlanks, arg.hpp:535-542. *)
Definition has_blanks (w : str) : bool := match w with [] => false | _ :: t => has c_star t end.

(** _flag[0]: the terminating NUL for an empty flag. *)
Definition flag_char (d : decl) : Z := match d_flag d with [] => 0 | c :: _ => c end.

(** Replace the first occurrence of [c] by the blank character. *)
Fixpoint blank_first (c : Z) (s : str) : option str :=
  match s with
  | [] => None
  | x :: t => if x =? c then Some (c_star :: t)
              else match blank_first c t with Some t' => Some (x :: t') | None => None end
  end.

(** Replace every occurrence. *)
Definition blank_all (c : Z) (s : str) : str := map (fun x => if x =? c then c_star else x) s.
Definition occurrences (c : Z) (s : str) : Z := Zlen (filter (Z.eqb c) s).

(** SwitchArg::combinedSwitchesMatch, switch_arg.hpp:131-157: [Some w'] when it matches, [w'] being the
    word with the matched character blanked out. *)
Definition combined_match (d : decl) (w : str) : option str :=
  match w with
  | c :: t =>
      if negb (c =? c_dash) then None
      else match t with
           | c' :: _ => if c' =? c_dash then None
                        else match blank_first (flag_char d) t with
                             | Some t' => Some (c :: t') | None => None end
           | [] => None
           end
  | [] => None
  end.

(** The errors that end a parse, in the order of the source text. *)
Inductive perr :=
| EAlreadySet | ENoDelimiter | EMissingValue | EUnreadable | ETooManyValues | EConstraint
| ENoMatch | ERequiredMissing | ETooManyArgs.

(** Outcome of processArg: [PNo w a g]: it returned false, having left [w] as the current word, [a] as the
    argument's state and [g] as the process-wide state; [PYes took a g]: it returned true, and [took] says
    whether it also consumed the next word; an error; exit(0) by the help or version visitor; undefined
    behaviour. *)
Inductive pres :=
| PNo (w : str) (a : dyn) (g : glob)
| PYes (took : bool) (a : dyn) (g : glob)
| PErr (e : perr)
| PExit
| PUB.

(** Arg::_checkWithVisitor, arg.hpp:505-509, with the built-in visitors: help_visitor.hpp:58,
    version_visitor.hpp:58, ignore_rest_visitor.hpp:42. [None]: the process exits. *)
Definition visit (d : decl) (g : glob) : option glob :=
  match d_vis d with
  | NoVis => Some g
  | VIgnore => Some (mkG true (g_delim g) (g_opt g))
  | VHelp | VVersion => None
  end.

(** ValuesConstraint::check, values_constraint.hpp:111-118; no constraint: always satisfied. *)
Definition allowed (d : decl) (v : val) : bool :=
  match d_allowed d with None => true | Some vs => existsb (veqb v) vs end.

Definition set_switch (a : dyn) (b : bool) : dyn :=
  mkA (a_req a) true (a_xor a) (a_more a) b (a_count a) (a_vals a).
Definition set_count (a : dyn) (n : Z) : dyn :=
  mkA (a_req a) true (a_xor a) (a_more a) (a_on a) n (a_vals a).
Definition set_vals (a : dyn) (l : list val) : dyn :=
  mkA (a_req a) true (a_xor a) (a_more a) (a_on a) (a_count a) l.

(** SwitchArg::processArg, switch_arg.hpp:160-190. *)
Definition switch_process (g : glob) (d : decl) (a : dyn) (w : str) : pres :=
  if g_ignore g then PNo w a g
  else if arg_matches d w then
    if a_set a then PErr EAlreadySet
    else match visit d g with
         | None => PExit
         | Some g' => PYes false (set_switch a (negb (a_on a))) g'
         end
  else match combined_match d w with
       | None => PNo w a g
       | Some w1 =>
           let ret := arg_matches d w1 in
           if a_set a || (negb ret && match combined_match d w1 with Some _ => true | None => false end)
           then PErr EAlreadySet
           else match visit d g with
                | None => PExit
                | Some g' => if ret then PYes false (set_switch a (negb (a_on a))) g'
                             else PNo w1 (set_switch a (negb (a_on a))) g'
                end
       end.

(** MultiSwitchArg::processArg, multi_switch_arg.hpp:135-170. The while loop at 161-162 blanks one
    occurrence per turn; when the flag is the blank character itself it never ends and the counter
    overflows. Counting past INT_MAX is undefined as well. *)
Definition multi_switch_process (g : glob) (d : decl) (a : dyn) (w : str) : pres :=
  if g_ignore g then PNo w a g
  else if arg_matches d w then
    if in_int (a_count a + 1) then
      match visit d g with
      | None => PExit | Some g' => PYes false (set_count a (a_count a + 1)) g' end
    else PUB
  else match combined_match d w with
       | None => PNo w a g
       | Some _ =>
           let n := a_count a + occurrences (flag_char d) (tl w) in
           if (flag_char d =? c_star) || negb (in_int n) then PUB
           else match visit d g with
                | None => PExit
                | Some g' => PNo (c_dash :: blank_all (flag_char d) (tl w)) (set_count a n) g'
                end
       end.

(** ValueArg::_extractValue, value_arg.hpp:486-508: the new value, or the error thrown. *)
Definition value_extract (t : ty) (d : decl) (a : dyn) (s : str) : perr + dyn :=
  match extract t s with
  | XFail => inl EUnreadable
  | XMany => inl ETooManyValues
  | XVal v =>
      let l := match v with Some v => [v] | None => a_vals a end in
      if forallb (allowed d) l then inr (set_vals a l) else inl EConstraint
  end.

(** MultiArg::_extractValue, multi_arg.hpp:486-507. When nothing was read the int copied into the vector is
    uninitialised: undefined behaviour ([None]). *)
Definition multi_extract (t : ty) (d : decl) (a : dyn) (s : str) : option (perr + dyn) :=
  match extract t s with
  | XFail => Some (inl EUnreadable)
  | XMany => Some (inl ETooManyValues)
  | XVal None => None
  | XVal (Some v) => Some (if allowed d v then inr (set_vals a (a_vals a ++ [v])) else inl EConstraint)
  end.

(** ValueArg::processArg, value_arg.hpp:422-464, and MultiArg::processArg, multi_arg.hpp:394-443, which
    differs by not testing _alreadySet. [rest] is the part of the vector after the current word. *)
Definition labelled_process (g : glob) (t : ty) (multi : bool) (d : decl) (a : dyn) (w : str)
    (rest : list str) : pres :=
  if g_ignore g then PNo w a g
  else if has_blanks w then PNo w a g
  else
    let '(flag, value) := trim_flag (g_delim g) w in
    if arg_matches d flag then
      if negb multi && a_set a then PErr EAlreadySet
      else if negb (g_delim g =? c_space) && seqb value [] then PErr ENoDelimiter
      else
        let go took s :=
          match (if multi then multi_extract t d a s else Some (value_extract t d a s)) with
          | None => PUB
          | Some (inl e) => PErr e
          | Some (inr a') => match visit d g with None => PExit | Some g' => PYes took a' g' end
          end in
        if seqb value [] then
          match rest with
          | [] => PErr EMissingValue
          | s :: _ => go true s
          end
        else go false value
    else PNo w a g.

(** UnlabeledValueArg::processArg, unlabeled_value_arg.hpp:271-286. *)
Definition uvalue_process (g : glob) (t : ty) (d : decl) (a : dyn) (w : str) : pres :=
  if a_set a then PNo w a g
  else if has_blanks w then PNo w a g
  else match value_extract t d a w with
       | inl e => PErr e
       | inr a' => PYes false a' g
       end.

(** UnlabeledMultiArg::processArg, unlabeled_multi_arg.hpp:236-260. *)
Definition umulti_process (g : glob) (t : ty) (d : decl) (a : dyn) (w : str) : pres :=
  if has_blanks w then PNo w a g
  else match multi_extract t d a w with
       | None => PUB
       | Some (inl e) => PErr e
       | Some (inr a') => PYes false a' g
       end.

(** The virtual call processArg. *)
Definition process (g : glob) (d : decl) (a : dyn) (w : str) (rest : list str) : pres :=
  match d_kind d with
  | KSwitch => switch_process g d a w
  | KMultiSwitch => multi_switch_process g d a w
  | KValue t => labelled_process g t false d a w rest
  | KMulti t => labelled_process g t true d a w rest
  | KUValue t => uvalue_process g t d a w
  | KUMulti t => umulti_process g t d a w
  end.

(** * Exclusive groups *)

(** Arg::xorSet, arg.hpp:549-553. *)
Definition xor_set (a : dyn) : dyn :=
  mkA (a_req a) true true (a_more a) (a_on a) (a_count a) (a_vals a).

(** Arg::allowMore, arg.hpp:563-566, and MultiArg::allowMore, multi_arg.hpp:509-515. *)
Definition allow_more (d : decl) (a : dyn) : bool * dyn :=
  if is_multi (d_kind d)
  then (a_more a, mkA (a_req a) (a_set a) (a_xor a) true (a_on a) (a_count a) (a_vals a))
  else (false, a).

(** XorHandler::check, xor_handler.hpp:94-123. *)
Definition xor_check (xs : list (list Z)) (h : heap) (i : Z) (d : decl) : heap * Z :=
  match find (existsb (Z.eqb i)) xs with
  | Some grp =>
      let h1 := fun j => if existsb (Z.eqb j) grp && negb (j =? i) then xor_set (h j) else h j in
      let '(am, a') := allow_more d (h1 i) in
      (hset h1 i a', if am then 0 else Zlen grp)
  | None => (h, if is_required d (h i) then 1 else 0)
  end.

(** * The parse loop *)

(** The inner loop, cmd_line.hpp:384-392: [SMatch took h g n]: some argument returned true ([n] is what
    was added to requiredCount); [SNone w h g]: none did. *)
Inductive sres :=
| SMatch (took : bool) (h : heap) (g : glob) (n : Z)
| SNone (w : str) (h : heap) (g : glob)
| SErr (e : perr)
| SExit
| SUB.

Fixpoint scan (xs : list (list Z)) (l : list (Z * decl)) (g : glob) (h : heap) (w : str)
    (rest : list str) : sres :=
  match l with
  | [] => SNone w h g
  | (i, d) :: l =>
      match process g d (h i) w rest with
      | PYes took a g' =>
          let '(h', n) := xor_check xs (hset h i a) i d in SMatch took h' g' n
      | PNo w' a g' => scan xs l g' (hset h i a) w' rest
      | PErr e => SErr e
      | PExit => SExit
      | PUB => SUB
      end
  end.

(** CmdLine::_emptyCombined, cmd_line.hpp:415-425. *)
Definition empty_combined (w : str) : bool :=
  match w with
  | c :: t => (c =? c_dash) && forallb (Z.eqb c_star) t
  | [] => false
  end.

(** Outcome of CmdLine::parse: it returned; it reported an error and called exit(1); the help or version
    switch called exit(0); undefined behaviour. *)
Inductive outcome :=
| Done (h : heap) (g : glob)
| Failed (e : perr)
| Exited
| Undefined.

(** The outer loop and the final count, cmd_line.hpp:379-408, over the words that are left. The vector of
    words is represented by its unread part: nothing reads a word before the current one. *)
Fixpoint parse_loop (p : parser) (g : glob) (h : heap) (n : Z) (ws : list str) : outcome :=
  match ws with
  | [] => if n <? p_num p then Failed ERequiredMissing
          else if p_num p <? n then Failed ETooManyArgs
          else Done h g
  | w :: rest =>
      match scan (p_xor p) (p_args p) g h w rest with
      | SMatch took h' g' k =>
          if took then
            match rest with
            | [] => Undefined
            | _ :: rest' => parse_loop p g' h' (n + k) rest'
            end
          else parse_loop p g' h' (n + k) rest
      | SNone w' h' g' =>
          if empty_combined w' then parse_loop p g' h' n rest
          else if g_ignore g' then parse_loop p g' h' n rest
          else Failed ENoMatch
      | SErr e => Failed e
      | SExit => Exited
      | SUB => Undefined
      end
  end.

(** CmdLine::parse, cmd_line.hpp:368-413: the words are argv[1], argv[2], ... *)
Definition parse (p : parser) (g : glob) (h : heap) (ws : list str) : outcome := parse_loop p g h 0 ws.

(** What getValue() returns after a parse: switch_arg.hpp:129, multi_switch_arg.hpp:133,
    value_arg.hpp:416-417, multi_arg.hpp:391-392. *)
Definition get_switch (h : heap) (i : Z) : bool := a_on (h i).
Definition get_count (h : heap) (i : Z) : Z := a_count (h i).
Definition get_values (h : heap) (i : Z) : list val := a_vals (h i).

(** * Usage text: StdOutput::spacePrint, std_output.hpp:222-285 *)

Definition sep (c : Z) : bool := (c =? c_space) || (c =? c_comma) || (c =? c_bar).
(** s[i] of a std::string: the NUL at i = length, undefined beyond and for negative i. *)
Definition char_at (s : str) (i : Z) : res Z :=
  if i =? Zlen s then Ok 0 else match zget s i with Some c => Ok c | None => UB end.

(** The while loop at 240-245: [n] is stringLen + 2 counted down, so that the index start - 1 is still
    evaluated. *)
Fixpoint trim_len (s : str) (start : Z) (n : nat) : res Z :=
  match n with
  | O => Ok (-2)
  | S k =>
      let len := Z.of_nat n - 2 in
      c <- char_at s (len + start) ;;
      if sep c then Ok len else if 0 <=? len then trim_len s start k else Ok len
  end.

(** The newline loop at 253-255: the bound shrinks to just after the first newline. *)
Fixpoint newline_len (t : str) : option Z :=
  match t with
  | [] => None
  | c :: t => if c =? c_nl then Some 1
              else match newline_len t with Some k => Some (k + 1) | None => None end
  end.

Definition sub_str (s : str) (start len : Z) : str := firstn (Z.to_nat len) (skipn (Z.to_nat start) s).

(** The while loop at 273-274: the new value of start. *)
Fixpoint skip_spaces (s : str) (start len : Z) (fuel : nat) : res Z :=
  match fuel with
  | O => Ok start
  | S k =>
      c <- char_at s (len + start) ;;
      if (c =? c_space) && (start <? Zlen s) then skip_spaces s (start + 1) len k else Ok start
  end.

(** One turn of the loop at 234-277: the printed line and the next start. *)
Definition wrap_step (s : str) (start allowed : Z) : res (str * Z) :=
  let len := Z.min (Zlen s - start) allowed in
  len <- (if len =? allowed then trim_len s start (Z.to_nat (len + 2)) else Ok len) ;;
  let len := if len <=? 0 then allowed else len in
  let len := match newline_len (sub_str s start len) with Some k => k | None => len end in
  start' <- skip_spaces s start len (S (length s)) ;;
  Ok (sub_str s start len, start' + len).

(** The loop at 234-277; the result is the list of lines as (indent, text). *)
Fixpoint wrap_loop (fuel : nat) (s : str) (start allowed indent offset : Z) : res (list (Z * str)) :=
  if start <? Zlen s then
    match fuel with
    | O => Throw UnknownError
    | S f =>
        r <- wrap_step s start allowed ;;
        let '(line, start') := r in
        let '(al, ind) := if start =? 0 then (allowed - offset, indent + offset) else (allowed, indent) in
        ls <- wrap_loop f s start' al ind offset ;;
        Ok ((indent, line) :: ls)
    end
  else Ok [].

(** spacePrint as called by _shortUsage and _longUsage, with maxWidth = 75. *)
Definition space_print (s : str) (indent offset : Z) : res (list (Z * str)) :=
  if 75 <? Zlen s + indent
  then wrap_loop (length s) s 0 (75 - indent) indent offset
  else Ok [(indent, s)].
