(** Model of ecl_exceptions: StandardException and DataException.
    Files: /repo/ecl_exceptions/src/lib/standard_exception.cpp, include/ecl/exceptions/data_exception.hpp,
    exception.hpp.  Text is a list of character codes. *)
From Verif Require Import Base.
From Coq Require Import Strings.String Strings.Ascii.
Open Scope Z_scope.

(** Character codes of a literal. *)
Fixpoint codes (s : string) : list Z :=
  match s with EmptyString => [] | String c s' => Z.of_nat (nat_of_ascii c) :: codes s' end.
Definition nl : Z := 10.
(** The literals of standard_exception.cpp:52, 57-59 and data_exception.hpp:126, 137-142. *)
Definition sep : list Z := nl :: codes "         : ".
Definition loc_head : list Z := nl :: codes "Location : ".
Definition flag_head : list Z := codes "Flag     : ".
Definition detail_head : list Z := codes "Detail   : ".
Definition data_head : list Z := codes "Data     : ".

(** An exception.  [edata]: what [stream << data] prints (DataException only). *)
Record exc := mkExc { eloc : list Z; eflag : err; edetail : list Z; edata : option (list Z); ecombined : list Z }.

(** [flag_text]: Error(flag).what(), from another package: any text. *)
(** create_combined_message, standard_exception.cpp:56-61 and data_exception.hpp:134-144. *)
Definition combine (flag_text : err -> list Z) (loc : list Z) (f : err) (detail : list Z) (data : option (list Z)) : list Z :=
  loc_head ++ loc ++ [nl] ++ flag_head ++ flag_text f ++ [nl] ++
  (if 0 <? Zlen detail then detail_head ++ detail ++ [nl] else []) ++
  match data with Some d => data_head ++ d ++ [nl] | None => [] end.
(** StandardException(loc, error[, msg]), standard_exception.cpp:32-45 (msg empty if not given);
    DataException(loc, error[, msg], data), data_exception.hpp:90-112. *)
Definition exc_new (flag_text : err -> list Z) (loc : list Z) (f : err) (msg : list Z) (data : option (list Z)) : exc :=
  mkExc loc f msg data (combine flag_text loc f msg data).
(** StandardException(loc, e), standard_exception.cpp:47-54; DataException(loc, e), data_exception.hpp:120-128. *)
Definition exc_again (flag_text : err -> list Z) (loc : list Z) (e : exc) : exc :=
  let l := loc ++ sep ++ eloc e in mkExc l (eflag e) (edetail e) (edata e) (combine flag_text l (eflag e) (edetail e) (edata e)).
(** what(), standard_exception.cpp:62-65, data_exception.hpp:152-154: a C string, read up to its first NUL. *)
Fixpoint c_text (l : list Z) : list Z := match l with [] => [] | c :: l' => if c =? 0 then [] else c :: c_text l' end.
Definition what (e : exc) : list Z := c_text (ecombined e).
