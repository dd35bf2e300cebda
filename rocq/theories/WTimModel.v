(** Model of time and priorities on Windows: /repo/ecl_time/src/lib/timestamp_win.cpp:38-69, stopwatch.cpp:26-52 with that
    stamp(), sleep_win.cpp:68-124 and /repo/ecl_threads/src/lib/priority_win.cpp:39-110, 181-198.  On Windows long has 32 bits and
    time_t 64; seconds do not overflow.  The clock ticks once a nanosecond and does not go before its epoch.  ecl_time_lite
    (sleep) is not part of the repository: a sleep is the structure handed to it. *)
From Coq Require Import ZArith List Bool.
Import ListNotations.
Open Scope Z_scope.

(** * Time stamps *)
Record stamp_t := Stamp { t_sec : Z; t_nsec : Z }.
(** TimeStamp::TimeStamp(), timestamp_win.cpp:38-49: both conversions truncate. *)
Definition stamp_now (ticks : Z) : stamp_t := Stamp (Z.quot ticks 1000000000) (Z.rem ticks 1000000000).
(** TimeStamp::stamp(), timestamp_win.cpp:67-69: nothing but a reference to the object. *)
Definition restamp (t : stamp_t) (now : Z) : stamp_t := t.
(** operator-, timestamp_base.cpp:186-198 (normalisation; the check of the constructor is C28's subject). *)
Definition minus (a b : stamp_t) : stamp_t :=
  let s := t_sec a - t_sec b in
  let n := t_nsec a - t_nsec b in
  if (0 <? s) && (n <? 0) then Stamp (s - 1) (n + 1000000000)
  else if (s <? 0) && (0 <? n) then Stamp (s + 1) (n - 1000000000)
  else Stamp s n.
(** StopWatch, stopwatch.cpp:26-52; the two readings of the constructor; each call with the reading of the clock. *)
Record swatch := Swatch { start_time : stamp_t; split_time : stamp_t }.
Inductive swop := Restart | Elapsed | Split.
Definition sw_new (r0 r1 : Z) : swatch := Swatch (stamp_now r0) (stamp_now r1).
Definition sw_step (w : swatch) (o : swop) (now : Z) : swatch * option stamp_t :=
  match o with
  | Restart => let s := restamp (start_time w) now in (Swatch s s, None)
  | Elapsed => (w, Some (minus (stamp_now now) (start_time w)))
  | Split => let last := split_time w in let s := restamp (split_time w) now in (Swatch (start_time w) s, Some (minus s last))
  end.
Fixpoint sw_run (w : swatch) (l : list (swop * Z)) : swatch * list (option stamp_t) :=
  match l with
  | [] => (w, [])
  | (o, now) :: tl => let '(w1, r) := sw_step w o now in let '(w2, rs) := sw_run w1 tl in (w2, r :: rs)
  end.

(** * Sleeps *)
Inductive sleeper := MilliS | MicroS | NanoS.
Definition to_long (z : Z) : Z := let m := z mod 2 ^ 32 in if m <? 2 ^ 31 then m else m - 2 ^ 32.
(** Constructors: sleep_win.cpp:68-71, 90-93, 110-113. *)
Definition sleep_new (k : sleeper) (x : Z) : stamp_t :=
  match k with
  | MilliS => Stamp (x / 1000) (to_long (x mod 1000 * 1000000))
  | MicroS => Stamp (x / 1000000) (to_long (x mod 1000000 * 1000))
  | NanoS => Stamp (x / 1000000000) (to_long (x mod 1000000000))
  end.
(** operator()(): sleep_win.cpp:73-76, 95-98, 115-118; operator()(x): sleep_win.cpp:78-84, 100-104, 120-124. *)
Definition sleep_call (k : sleeper) (req : stamp_t) (o : option Z) : stamp_t :=
  match o with
  | None => req
  | Some x =>
    match k with
    | MilliS => Stamp (x / 1000) (to_long (x mod 1000 * 1000000))
    | MicroS => Stamp (t_sec req) (to_long (1000 * x))
    | NanoS => Stamp (t_sec req) (to_long x)
    end
  end.
Fixpoint sleep_calls (k : sleeper) (req : stamp_t) (l : list (option Z)) : stamp_t :=
  match l with [] => req | o :: tl => sleep_calls k (sleep_call k req o) tl end.

(** * Priorities *)
(** priority_common.hpp:32-44. *)
Inductive prio := PDefault | PUnknown | PBackground | PLow | PNormal | PHigh | PCritical | PReal1 | PReal2 | PReal3 | PReal4.
(** THREAD_PRIORITY_ constants of Windows. *)
Definition TIME_CRITICAL : Z := 15.
Definition HIGHEST : Z := 2.
Definition ABOVE_NORMAL : Z := 1.
Definition NORMAL : Z := 0.
Definition BELOW_NORMAL : Z := -1.
Definition IDLE : Z := -15.
Inductive preply := PTrue | PFalse | PThrow.
(** set_priority, priority_win.cpp:39-79, with set_real_time_priority, priority_win.cpp:181-198: the level of the thread before and after. The handle of the current
    thread is never null; ok: SetThreadPriority's answer. *)
Definition set_level (debug : bool) (level : Z) (p : prio) (ok : bool) : Z * preply :=
  let set (l : Z) := if ok then (l, PTrue) else (level, if debug then PThrow else PFalse) in
  match p with
  | PReal1 | PReal2 | PReal3 | PReal4 => if ok then (TIME_CRITICAL, PTrue) else (level, PFalse)
  | PCritical => set HIGHEST
  | PHigh => set ABOVE_NORMAL
  | PNormal => set NORMAL
  | PLow => set BELOW_NORMAL
  | PBackground => set IDLE
  | PDefault | PUnknown => (level, if debug then PThrow else PFalse)
  end.
(** get_priority, priority_win.cpp:81-110: a DWORD compared with the constants converted to DWORD. *)
Definition dword (z : Z) : Z := z mod 2 ^ 32.
Definition get_level (answer : Z) : prio :=
  let d := dword answer in
  if d =? dword TIME_CRITICAL then PReal1
  else if d =? dword HIGHEST then PCritical
  else if d =? dword ABOVE_NORMAL then PHigh
  else if d =? dword NORMAL then PNormal
  else if d =? dword BELOW_NORMAL then PLow
  else if d =? dword IDLE then PBackground
  else PUnknown.
