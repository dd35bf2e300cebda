(** Model of ecl_time: time stamps, stopwatches, the periodic snoozer, sleep objects and
    time stamp printing.  Seconds are unbounded integers (the code uses 64-bit [time_t]/[long];
    overflow of the seconds field, i.e. times beyond 2^62 s, is not modelled). *)
From Verif Require Import Base Numerals.

(** One second in nanoseconds. *)
Definition G : Z := 1000000000.

(** TimeStructure (posix [struct timespec]); ecl_time/include/ecl/time/timestamp_base.hpp:205-207
    (member [time] of TimeStampBase). *)
Record ts := TS { sec : Z; nsec : Z }.

(** TimeStampBase(seconds,nanoseconds), ecl_time/src/lib/timestamp_base.cpp:33-40;
    [stamp(sec,nsec)] at 52-60 is the same. *)
Definition mk (debug : bool) (s n : Z) : res ts :=
  _ <- assert_throw debug (((0 <? s) && (0 <=? n)) || ((s <? 0) && (n <=? 0)) || (s =? 0)) InvalidInputError ;;
  Ok (TS s n).

(** Comparison operators, timestamp_base.cpp:66-124. *)
Definition ts_eq (a b : ts) : bool := if (sec b =? sec a) && (nsec b =? nsec a) then true else false.
Definition ts_ne (a b : ts) : bool := if (sec b =? sec a) && (nsec b =? nsec a) then false else true.
Definition ts_le (a b : ts) : bool :=
  if sec a >? sec b then false else if sec a =? sec b then (if nsec a >? nsec b then false else true) else true.
Definition ts_ge (a b : ts) : bool :=
  if sec a <? sec b then false else if sec a =? sec b then (if nsec a <? nsec b then false else true) else true.
Definition ts_lt (a b : ts) : bool :=
  if sec a >? sec b then false else if sec a =? sec b then (if nsec a >=? nsec b then false else true) else true.
Definition ts_gt (a b : ts) : bool :=
  if sec a <? sec b then false else if sec a =? sec b then (if nsec a <=? nsec b then false else true) else true.

(** The carry chain shared by [operator+=] (timestamp_base.cpp:129-148) and [operator+] (150-169). *)
Definition add_raw (a b : ts) : ts :=
  let s := sec a + sec b in
  let n := nsec a + nsec b in
  let '(s, n) := if n >=? G then (s + 1, n - G) else if n <=? - G then (s - 1, n + G) else (s, n) in
  let '(s, n) := if (s >? 0) && (n <? 0) then (s - 1, G + n) else (s, n) in
  let '(s, n) := if (s <? 0) && (n >? 0) then (s + 1, n - G) else (s, n) in
  TS s n.
(** [operator+=], timestamp_base.cpp:129-148: stores the fields directly. *)
Definition ts_add_assign (a b : ts) : ts := add_raw a b.
(** [operator+], timestamp_base.cpp:150-169: goes through the checking constructor. *)
Definition ts_add (debug : bool) (a b : ts) : res ts := let r := add_raw a b in mk debug (sec r) (nsec r).

(** The borrow chain shared by [operator-=] (timestamp_base.cpp:171-184) and [operator-] (186-198). *)
Definition sub_raw (a b : ts) : ts :=
  let s := sec a - sec b in
  let n := nsec a - nsec b in
  if (s >? 0) && (n <? 0) then TS (s - 1) (n + G)
  else if (s <? 0) && (n >? 0) then TS (s + 1) (n - G)
  else TS s n.
Definition ts_sub_assign (a b : ts) : ts := sub_raw a b.
Definition ts_sub (debug : bool) (a b : ts) : res ts := let r := sub_raw a b in mk debug (sec r) (nsec r).

(** Accessors msec/usec, ecl_time/include/ecl/time/timestamp_base.hpp:112-119 (C division truncates). *)
Definition msec (a : ts) : Z := Z.quot (nsec a) 1000000.
Definition usec (a : ts) : Z := Z.quot (nsec a) 1000.

(** StopWatch (ecl_time/src/lib/stopwatch.cpp:26-52) and CpuWatch (cpuwatch_rt.cpp:36-66).
    The clock is the list of values it returns to successive readings. *)
Record watch := Watch { w_start : ts; w_split : ts }.
Inductive wop := WRestart | WElapsed | WSplit.

(** StopWatch::StopWatch, stopwatch.cpp:26-29: both members are default constructed, each
    reading the clock (timestamp_pos.cpp:37-39), in declaration order. *)
Definition stopwatch_new (r0 r1 : ts) : watch := Watch r0 r1.
(** CpuWatch::CpuWatch, cpuwatch_rt.cpp:36-40: one reading. *)
Definition cpuwatch_new (r0 : ts) : watch := Watch r0 r0.
(** restart / elapsed / split, stopwatch.cpp:35-52 and cpuwatch_rt.cpp:46-66; [now] is the reading taken. *)
Definition wstep (debug : bool) (w : watch) (o : wop) (now : ts) : res (watch * option ts) :=
  match o with
  | WRestart => Ok (Watch now now, None)
  | WElapsed => d <- ts_sub debug now (w_start w) ;; Ok (w, Some d)
  | WSplit => d <- ts_sub debug now (w_split w) ;; Ok (Watch (w_start w) now, Some d)
  end.
Fixpoint wrun (debug : bool) (w : watch) (l : list (wop * ts)) : res (watch * list (option ts)) :=
  match l with
  | [] => Ok (w, [])
  | (o, now) :: l' =>
      p <- wstep debug w o now ;;
      q <- wrun debug (fst p) l' ;;
      Ok (fst q, snd p :: snd q)
  end.

(** Snooze, ecl_time/src/lib/snooze_pos.cpp:28-96; snooze_win.cpp:28-96 has the same text. *)
Record snooze := Snooze { sn_time : ts; sn_period : ts; sn_wrap : Z; sn_validate : bool }.
(** period(time, validate), snooze_pos.cpp:38-48, [now] is the reading in initialise(). *)
Definition snooze_new (period : ts) (validate : bool) (now : ts) : snooze :=
  Snooze now period (G - nsec period) validate.
(** add_period without its trailing validation, snooze_pos.cpp:60-67. *)
Definition add_period (s : snooze) : snooze :=
  let t := sn_time s in
  let t1 := if nsec t >? sn_wrap s then TS (sec t + 1) (nsec t - sn_wrap s)
            else TS (sec t) (nsec t + nsec (sn_period s)) in
  Snooze (TS (sec t1 + sec (sn_period s)) (nsec t1)) (sn_period s) (sn_wrap s) (sn_validate s).
(** The test in validate(), snooze_pos.cpp:79 and 84-85. *)
Definition behind (now t : ts) : bool :=
  if sec now >? sec t then true else if sec now =? sec t then nsec now >? nsec t else false.
(** validate(), snooze_pos.cpp:74-92, with the recursive call made by add_period (69-71) when
    validate_times is set.  Each round reads the clock; [None]: more readings than supplied. *)
Fixpoint sn_check (s : snooze) (clk : list ts) : option (snooze * list ts) :=
  match clk with
  | [] => None
  | now :: clk' =>
      if behind now (sn_time s) then
        let s1 := add_period (Snooze now (sn_period s) (sn_wrap s) (sn_validate s)) in
        if sn_validate s then sn_check s1 clk' else Some (s1, clk')
      else Some (s, clk')
  end.
(** operator(), snooze_pos.cpp:50-55; the deadline passed to sleep_until is [sn_time] of the result. *)
Definition snooze_call (s : snooze) (clk : list ts) : option (snooze * list ts) :=
  let s1 := add_period s in
  if sn_validate s then
    match sn_check s1 clk with Some (s2, clk') => sn_check s2 clk' | None => None end
  else sn_check s1 clk.
(** k calls; returns the deadlines. *)
Fixpoint snooze_run (k : nat) (s : snooze) (clk : list ts) : option (list ts * snooze * list ts) :=
  match k with
  | O => Some ([], s, clk)
  | S k' =>
      match snooze_call s clk with
      | Some (s1, clk1) =>
          match snooze_run k' s1 clk1 with
          | Some (ds, s2, clk2) => Some (sn_time s1 :: ds, s2, clk2)
          | None => None
          end
      | None => None
      end
  end.

(** Sleep objects, ecl_time/src/lib/sleep_pos.cpp.  State: the [required] timespec.  A call hands
    [required] to nanosleep. *)
Inductive skind := Milli | Micro | Nano.
(** Units per second of each class. *)
Definition per_sec (k : skind) : Z := match k with Milli => 1000 | Micro => 1000000 | Nano => 1000000000 end.
(** Constructors: MilliSleep 68-71, MicroSleep 92-95, NanoSleep 114-117. *)
Definition sl_new (k : skind) (x : Z) : ts :=
  match k with
  | Milli => TS (x / 1000) ((x mod 1000) * 1000000)
  | Micro => TS (x / 1000000) ((x mod 1000000) * 1000)
  | Nano => TS (x / 1000000000) (x mod 1000000000)
  end.
(** operator()(x): MilliSleep 79-86; MicroSleep 103-108 and NanoSleep 125-130 set only tv_nsec
    (the product is an unsigned long stored into a long). *)
Definition sl_set (k : skind) (req : ts) (x : Z) : ts :=
  match k with
  | Milli => TS (x / 1000) ((x mod 1000) * 1000000)
  | Micro => TS (sec req) (wrap_s 64 (1000 * x))
  | Nano => TS (sec req) (wrap_s 64 x)
  end.
Inductive slop := SlCall | SlCallWith (x : Z).
(** operator()() 73-77 / 97-101 / 119-123 and operator()(x). *)
Definition sl_step (k : skind) (req : ts) (o : slop) : ts :=
  match o with SlCall => req | SlCallWith x => sl_set k req x end.
(** Requests handed to nanosleep by a history of calls. *)
Fixpoint sl_run (k : skind) (req : ts) (ops : list slop) : list ts :=
  match ops with [] => [] | o :: l => let r := sl_step k req o in r :: sl_run k r l end.
(** Sleep (whole seconds or a Duration), sleep_pos.cpp:32-62. *)
Inductive sop := SSecs (x : Z) | SDur (d : ts).
Definition sleep_req (o : sop) : ts := match o with SSecs x => TS x 0 | SDur d => TS (sec d) (nsec d) end.

(** operator<<, ecl_time/include/ecl/time/timestamp_base.hpp:225-252; the stream's rendering of a
    [long] is [num_str]. *)
Definition zeros (k : nat) : list Z := repeat 48 k.
Definition ts_print (t : ts) : list Z :=
  let pre := if (sec t =? 0) && (nsec t <? 0) then [45] else [] in
  let n := Z.abs (nsec t) in
  let pad := if n <? 10 then zeros 8
             else if n <? 100 then zeros 7
             else if n <? 1000 then zeros 6
             else if n <? 10000 then zeros 5
             else if n <? 100000 then zeros 4
             else if n <? 1000000 then zeros 3
             else if n <? 10000000 then zeros 2
             else if n <? 100000000 then zeros 1
             else [] in
  pre ++ num_str (sec t) ++ [46] ++ pad ++ num_str n.

(** FrequencyMonitor, ecl_time/src/lib/frequency.cpp:20-89.  Intervals are time stamps; the
    hz/float copies in the diagnostics are not modelled, the exact count and interval are kept. *)
Record fmon := Fmon { fm_count : Z; fm_last_an : ts; fm_min : ts; fm_max : ts; fm_period : ts; fm_last : ts;
                      fd_conn : bool; fd_min : ts; fd_max : ts; fd_count : Z; fd_interval : ts; fd_last : ts }.
(** Initial maximum and minimum, frequency.cpp:27-28 (100000.0 s and 0.0 s). *)
Definition fm_hi : ts := TS 100000 0.
Definition fm_lo : ts := TS 0 0.
(** update(), frequency.cpp:39-55. *)
Definition fm_update (debug : bool) (m : fmon) (now : ts) : res fmon :=
  d <- ts_sub debug now (fm_last m) ;;
  Ok (Fmon (fm_count m + 1) (fm_last_an m)
        (if ts_lt d (fm_min m) then d else fm_min m)
        (if ts_gt d (fm_max m) then d else fm_max m)
        (fm_period m) now true (fd_min m) (fd_max m) (fd_count m) (fd_interval m) (fd_last m)).
(** analyse(), frequency.cpp:57-89. *)
Definition fm_analyse (debug : bool) (m : fmon) (now : ts) : res fmon :=
  i <- ts_sub debug now (fm_last_an m) ;;
  if ts_gt i (fm_period m) then
    if fm_count m =? 0 then
      Ok (Fmon (fm_count m) now (fm_min m) (fm_max m) (fm_period m) (fm_last m) false (TS 0 0) (TS 0 0) 0 i (fm_last m))
    else
      Ok (Fmon 0 now fm_hi fm_lo (fm_period m) (fm_last m) true (fm_min m) (fm_max m) (fm_count m) i (fm_last m))
  else
    Ok (Fmon (fm_count m) (fm_last_an m) (fm_min m) (fm_max m) (fm_period m) (fm_last m)
          (fd_conn m) (fd_min m) (fd_max m) (fd_count m) (fd_interval m) (fm_last m)).
(** FrequencyMonitor(window_period), frequency.cpp:20-36: [last_anyalsed] and [last_incoming] each read the
    clock; the diagnostics start at -1 (frequency.hpp:33-40; last_incoming there is default constructed 0.0f). *)
Definition fm_new (period r0 r1 : ts) : fmon :=
  Fmon 0 r0 fm_hi fm_lo period r1 false (TS (-1) 0) (TS (-1) 0) (-1) (TS (-1) 0) (TS 0 0).
(** A history of updates and analyses; each operation reads the clock once.  An analysis returns the
    diagnostics: connection flag, shortest and longest interval in ns, update count. *)
Inductive fop := FUpdate | FAnalyse.
Record freport := FRep { r_count : Z; r_conn : bool; r_min : Z; r_max : Z }.
Definition ns_of (t : ts) : Z := sec t * 1000000000 + nsec t.
Definition freport_of (m : fmon) : freport := FRep (fd_count m) (fd_conn m) (ns_of (fd_min m)) (ns_of (fd_max m)).
Fixpoint fm_run (debug : bool) (m : fmon) (l : list (fop * ts)) : res (fmon * list freport) :=
  match l with
  | [] => Ok (m, [])
  | (FUpdate, now) :: l' => m1 <- fm_update debug m now ;; fm_run debug m1 l'
  | (FAnalyse, now) :: l' =>
      m1 <- fm_analyse debug m now ;;
      q <- fm_run debug m1 l' ;;
      Ok (fst q, freport_of m1 :: snd q)
  end.
