(** The DocBook description of a command line: ecl_command_line/include/ecl/command_line/docbook_output.hpp:81-266.  Characters are their codes.
    The output is a list of pieces: the literal tags of the source, and texts that come from the program.  Simplified: end-of-line manipulators and
    the document type declaration are left out; the attributes of <arg> are kept as two flags. *)
From Coq Require Import String.
From Verif Require Import Base.

(** An argument, as docbook_output.hpp sees it: which object it is, shortID(), longID(), getDescription(), isRequired(), acceptsMultipleValues(). *)
Record darg := mkD { d_obj : nat; d_short : list Z; d_long : list Z; d_desc : list Z; d_req : bool; d_multi : bool }.
(** The command line: getProgramName(), getVersion(), getMessage(), getArgList() and getXorHandler().getXorList(). *)
Record dcmd := mkC { c_prog : list Z; c_version : list Z; c_message : list Z; c_args : list darg; c_xor : list (list darg) }.

(** What is printed. *)
Inductive piece := Open (t : string) | Close (t : string) | ArgOpen (req multi : bool) | ArgClose | Data (s : list Z) | Word (s : string).

(** s.find_first_of(r): the text before it and after it. *)
Fixpoint split_at (r : Z) (s : list Z) : option (list Z * list Z) :=
  match s with
  | [] => None
  | c :: tl => if c =? r then Some ([], tl) else match split_at r tl with Some (a, b) => Some (c :: a, b) | None => None end
  end.
(** substituteSpecialChars, docbook_output.hpp:192-202, and removeChar, 204-211, which is the same with nothing put in.  [None]: the loop is not
    through after [fuel] turns. *)
Fixpoint substitute (fuel : nat) (r : Z) (x : list Z) (s : list Z) : option (list Z) :=
  match fuel with
  | O => None
  | S k => match split_at r s with None => Some s | Some (a, b) => substitute k r x (a ++ x ++ b) end
  end.
Definition lt_txt : list Z := [38; 108; 116; 59].           (* &lt; *)
Definition gt_txt : list Z := [38; 103; 116; 59].           (* &gt; *)
Definition loops (s : list Z) : nat := S (length s).
Definition then_sub (r : Z) (x : list Z) (o : option (list Z)) : option (list Z) := match o with Some s => substitute (loops s) r x s | None => None end.
(** The treatment of an ID, docbook_output.hpp:215-222 and 242-249, and of a description, 251-253. *)
Definition id_text (s : list Z) : option (list Z) := then_sub 93 [] (then_sub 91 [] (then_sub 62 gt_txt (then_sub 60 lt_txt (Some s)))).
Definition desc_text (s : list Z) : option (list Z) := then_sub 62 gt_txt (then_sub 60 lt_txt (Some s)).

(** printShortArg, docbook_output.hpp:213-238. *)
Definition short_arg (a : darg) : option (list piece) :=
  match id_text (d_short a) with Some id => Some [ArgOpen (d_req a) (d_multi a); Data id; ArgClose] | None => None end.
(** printLongArg, docbook_output.hpp:240-266. *)
Definition long_arg (a : darg) : option (list piece) :=
  match id_text (d_long a), desc_text (d_desc a) with
  | Some id, Some desc => Some [Open "simplelist"; Open "member"; Data id; Close "member"; Open "member"; Data desc; Close "member"; Close "simplelist"]
  | _, _ => None
  end.
Fixpoint all (f : darg -> option (list piece)) (l : list darg) : option (list piece) :=
  match l with [] => Some [] | a :: tl => match f a, all f tl with Some x, Some y => Some (x ++ y) | _, _ => None end end.
(** xorHandler.contains, used at docbook_output.hpp:132, 167, xor_handler.hpp:125-135. *)
Definition in_xor (c : dcmd) (a : darg) : bool := existsb (existsb (fun b => Nat.eqb (d_obj a) (d_obj b))) (c_xor c).
Definition rest_args (c : dcmd) : list darg := filter (fun a => negb (in_xor c a)) (c_args c).
Fixpoint concat_opt {A} (l : list (option (list A))) : option (list A) :=
  match l with [] => Some [] | x :: tl => match x, concat_opt tl with Some a, Some b => Some (a ++ b) | _, _ => None end end.
(** The groups, docbook_output.hpp:119-128. *)
Definition group_short (g : list darg) : option (list piece) :=
  match all short_arg g with Some p => Some (Open "group" :: p ++ [Close "group"]) | None => None end.
(** The groups again, docbook_output.hpp:148-163: OR is printed after the first [xlen] members, where xlen = xorList.size() - 1. *)
Fixpoint with_or (xlen xcount : nat) (g : list darg) : option (list piece) :=
  match g with
  | [] => Some []
  | a :: tl =>
    match long_arg a, with_or xlen (S xcount) tl with
    | Some x, Some y => Some (x ++ (if Nat.ltb xcount xlen then [Open "listitem"; Word "OR"; Close "listitem"] else []) ++ y)
    | _, _ => None
    end
  end.
Definition group_long (n : nat) (g : list darg) : option (list piece) :=
  match with_or (n - 1) 0 g with Some p => Some (Open "itemizedlist" :: p ++ [Close "itemizedlist"]) | None => None end.
(** usage, docbook_output.hpp:86-184. *)
Definition usage (c : dcmd) : option (list piece) :=
  concat_opt (
    [Some [Open "book"; Open "refentry"; Open "refmeta"; Open "refentrytitle"; Data (c_prog c); Close "refentrytitle";
           Open "manvolnum"; Word "1"; Close "manvolnum"; Close "refmeta"; Open "refnamediv"; Open "refname"; Data (c_prog c); Close "refname";
           Close "refnamediv"; Open "cmdsynopsis"; Open "command"; Data (c_prog c); Close "command"]]
    ++ map group_short (c_xor c)
    ++ [all short_arg (rest_args c)]
    ++ [Some [Close "cmdsynopsis"; Open "refsect1"; Open "title"; Word "Description"; Close "title"; Open "para"; Data (c_message c); Close "para";
              Close "refsect1"; Open "refsect1"; Open "title"; Word "Options"; Close "title"; Open "para"; Open "itemizedlist"]]
    ++ map (group_long (length (c_xor c))) (c_xor c)
    ++ [all long_arg (rest_args c)]
    ++ [Some [Close "itemizedlist"; Close "para"; Close "refsect1"; Open "refsect1"; Open "title"; Word "Version"; Close "title"; Open "para";
              Data (c_version c); Close "para"; Close "refsect1"; Close "refentry"; Close "book"]]).
