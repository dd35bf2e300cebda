(** Theorems about ecl_exceptions (C23). *)
From Verif Require Import Base ExcModel ExcProofs.
From Coq Require Import Strings.String.
Open Scope string_scope.
Open Scope list_scope.
Open Scope Z_scope.

(** C23: rethrowing keeps flag, message and data, and the report lists every level, outermost first. *)
Theorem C23_rethrow_preserves : forall ft l0 f msg data ls, let e := rethrown ft ls (exc_new ft l0 f msg data) in
  eflag e = f /\ edetail e = msg /\ edata e = data /\
  ecombined e = [10] ++ codes "Location : " ++ join (rev ls ++ [l0]) ++ [10] ++ codes "Flag     : " ++ ft f ++ [10] ++
    (if 0 <? Zlen msg then codes "Detail   : " ++ msg ++ [10] else []) ++
    match data with Some d => codes "Data     : " ++ d ++ [10] | None => [] end.
Proof. exact rethrow_text. Qed.
Print Assumptions C23_rethrow_preserves.
(** C23: the caller of what() sees the whole report, provided none of the texts contains a NUL. *)
Theorem C23_what_is_the_report : forall ft l0 f msg data ls, no_char 0 (ft f) -> Forall (no_char 0) (l0 :: ls) -> no_char 0 msg ->
  (forall d, data = Some d -> no_char 0 d) ->
  what (rethrown ft ls (exc_new ft l0 f msg data)) = ecombined (rethrown ft ls (exc_new ft l0 f msg data)).
Proof. exact report_no_nul. Qed.
Print Assumptions C23_what_is_the_report.
(** C23: different chains give different reports (locations are single lines, as LOC produces). *)
Theorem C23_report_determines_chain : forall ft l0 f msg ls l0' f' msg' ls',
  (forall x, no_char 10 (ft x)) -> Forall (no_char 10) (l0 :: ls) -> Forall (no_char 10) (l0' :: ls') ->
  ecombined (rethrown ft ls (exc_new ft l0 f msg None)) = ecombined (rethrown ft ls' (exc_new ft l0' f' msg' None)) ->
  l0 = l0' /\ ls = ls' /\ ft f = ft f' /\ msg = msg'.
Proof. exact report_inj. Qed.
Print Assumptions C23_report_determines_chain.
Example C23_case : what (rethrown (fun _ => codes "Open") [codes "b.cpp:2"; codes "c.cpp:3"] (exc_new (fun _ => codes "Open") (codes "a.cpp:1") OpenError (codes "no") None)) =
  codes "
Location : c.cpp:3
         : b.cpp:2
         : a.cpp:1
Flag     : Open
Detail   : no
".
Proof. reflexivity. Qed.
