(** print_priority_diagnostics and the failures of get_priority: ecl_threads/src/lib/priority_pos.cpp:121-290, on a system with
    _POSIX_PRIORITY_SCHEDULING. The priorities are those of ThreadModel, the exceptions those of PErrModel. *)
From Coq Require Import String Ascii.
From Verif Require Import Base Numerals ThreadModel PErrModel OErrModel.
Open Scope Z_scope.

(** The characters of a C string literal. *)
Fixpoint dlit (s : string) : list Z := match s with EmptyString => [] | String c s' => Z.of_nat (nat_of_ascii c) :: dlit s' end.

(** What the system answers: sched_getscheduler(0) (-1: failed), errno, sched_get_priority_min(SCHED_RR) and _max (-1: failed),
    sched_getparam(0) (None: failed), getpriority(PRIO_PROCESS,0). The functions ask more than once; the answers are the same. *)
Record answers := mkAns { an_sched : Z; an_errno : Z; an_min : Z; an_max : Z; an_param : option Z; an_nice : Z }.
(** SCHED_OTHER 0, SCHED_FIFO 1, SCHED_RR 2, SCHED_BATCH 3 of <sched.h> on Linux. *)

(** get_priority, 121-183. The thresholds are those of ThreadModel.get_priority; -1 is an error for both limits. *)
Definition level (b : build) (a : answers) : got prio :=
  if an_sched a =? -1 then (if debug_throws b then Threw (priority_exception (an_errno a)) else Gave UnknownP)
  else if an_sched a =? 0 then Gave (get_priority 0 0 (MkSched None (an_nice a)))
  else if an_sched a =? 2 then
    match an_param a with
    | None => if debug_throws b then Threw (priority_exception (an_errno a)) else Gave UnknownP
    | Some v =>
        if (an_min a =? -1) || (an_max a =? -1) then (if throws b then Threw CNotSupported else Gave UnknownP)
        else Gave (get_priority (an_min a) (an_max a) (MkSched (Some v) (an_nice a)))
    end
  else Gave UnknownP.

(** 194-198, 208-212. *)
Definition stars : list Z := dlit "***********************************************************".
Definition headline (s : string) : list Z := [10] ++ stars ++ [10] ++ dlit s ++ [10] ++ stars ++ [10] ++ [10].
(** 215-241. *)
Definition scheduler_line (n : Z) : list Z :=
  dlit "Scheduler.................................." ++
  (if n =? 0 then dlit "SCHED_OTHER" else if n =? 2 then dlit "SCHED_RR [RT]" else if n =? 1 then dlit "SCHED_FIFO [RT]"
   else if n =? 3 then dlit "SCHED_BATCH" else dlit "Unknown") ++ [10].
(** 243-287. *)
Definition level_line (p : prio) : list Z :=
  dlit "Priority..................................." ++
  dlit (match p with
        | BackgroundP => "Background" | LowP => "Low" | NormalP => "Normal" | HighP => "High" | CriticalP => "Critical"
        | RT4 => "RealTime4" | RT3 => "RealTime3" | RT2 => "RealTime2" | RT1 => "RealTime1"
        | DefaultP => "Default (Inherited)" | UnknownP => "Unknown"
        end)%string ++ [10].
(** print_priority_diagnostics, 188-290. *)
Definition diagnostics (b : build) (a : answers) : got (list Z) :=
  if (an_min a =? -1) || (an_max a =? -1) then
    if throws b then Threw CNotSupported
    else Gave (dlit "The posix SCHED_RR policy is not available on this system [sched_get_priority_min/max].")
  else
    let t := headline "*                  System Statistics" ++
             dlit "Real Time Priorities [Low,High]............[" ++ num_str (an_min a) ++ dlit "," ++ num_str (an_max a) ++ dlit "]" ++ [10] ++
             dlit "Niceness [Low,High]........................[" ++ num_str prio_max ++ dlit "," ++ num_str prio_min ++ dlit "]" ++ [10] ++
             headline "*                 Priority Statistics" in
    if an_sched a =? -1 then
      if debug_throws b then Threw (priority_exception (an_errno a)) else Gave (dlit "Call to sched_getscheduler failed.")
    else
      match level b a with
      | Gave p => Gave (t ++ scheduler_line (an_sched a) ++ level_line p)
      | Threw c => Threw c
      end.
(** The answers for a process in the state of ThreadModel, when nothing fails. *)
Definition answers_of (rr_min rr_max : Z) (s : sched) : answers :=
  mkAns (match sc_rr s with Some _ => 2 | None => 0 end) 0 rr_min rr_max (Some (match sc_rr s with Some v => v | None => 0 end)) (sc_nice s).
