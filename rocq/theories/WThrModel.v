(** Model of Thread on Windows: /repo/ecl_threads/include/ecl/threads/thread_win.hpp:235-240, 376, 420-555 and
    /repo/ecl_threads/src/lib/thread_win.cpp:32-129.  The three start functions differ in the function object only.
    One Thread object at a time (others do not interact with it); any number of threads of the operating system.
    Windows documentation: a handle stays valid until closed; SetThreadPriority accepts THREAD_PRIORITY_ values only;
    a terminated thread executes no further code. Exit codes: STILL_ACTIVE for a running thread. *)
From Coq Require Import ZArith List Bool Arith.
Import ListNotations.

(** priority_common.hpp:32-44. *)
Inductive priority := DefaultPriority | UnknownPriority | BackgroundPriority | LowPriority | NormalPriority | HighPriority
  | CriticalPriority | RealTimePriority1 | RealTimePriority2 | RealTimePriority3 | RealTimePriority4.
Inductive tstat := Fresh | Working | Finished | Killed.
(** thread_handle, thread_task, has_started; join_requested is never read. *)
Record tobj := mkO { o_handle : option nat; o_task : option nat; o_started : bool }.
(** The threads made so far with the task each of them runs, the tasks (true: allocated) and the open handles. *)
Record world := mkW { threads : list (tstat * nat); tasks : list bool; handles : list nat; object : option tobj }.
Definition world0 : world := mkW [] [] [] None.
Inductive reply := Silent | NoErrorR | BusyErrorR | UnknownErrorR | ThrowBusy | ThrowUnknown | ThrowPriority | Answer (b : bool).
Inductive woutcome := WNext (w : world) (r : reply) | WBlocked | WUndefined.
Inductive wcall :=
| TConstruct                                                 (* Thread() *)
| TConstructStart (p : priority) (created set_ok : bool)     (* Thread(function, priority): with the answers of the system *)
| TStart (p : priority) (created set_ok : bool)
| TCancel | TJoin | TIsRunning | TDestroy
| TBegin (t : nat)                                           (* the thread reads its task and calls the function *)
| TFinish (t : nat).                                         (* the function returns *)

(** thread_win.cpp:69-94, thread_win.hpp:469-494, 527-552: bResult. HIGH_PRIORITY_CLASS (0x80) is not a thread priority. *)
Definition set_result (p : priority) (set_ok : bool) : bool :=
  match p with
  | RealTimePriority1 | RealTimePriority2 | RealTimePriority3 | RealTimePriority4 => set_ok
  | CriticalPriority => false
  | HighPriority | LowPriority | BackgroundPriority => set_ok
  | DefaultPriority | UnknownPriority | NormalPriority => false
  end.
(** start, thread_win.cpp:41-97, thread_win.hpp:441-497, 499-555. The object, the world and the reply. *)
Definition start (debug : bool) (w : world) (o : tobj) (p : priority) (created set_ok : bool) : world * tobj * reply :=
  if o_started o then (w, o, if debug then ThrowBusy else BusyErrorR)
  else
    let k := length (tasks w) in
    let w1 := mkW (threads w) (tasks w ++ [true]) (handles w) (object w) in
    if created then
      let t := length (threads w) in
      let w2 := mkW (threads w ++ [(Fresh, k)]) (tasks w1) (t :: handles w) (object w) in
      (w2, mkO (Some t) (Some k) true, if set_result p set_ok then NoErrorR else if debug then ThrowPriority else NoErrorR)
    else (w1, mkO None (Some k) true, if debug then ThrowUnknown else UnknownErrorR).
Definition set_nth {A} (l : list A) (i : nat) (x : A) : list A := firstn i l ++ x :: skipn (S i) l.
Definition alive (s : tstat) : bool := match s with Fresh | Working => true | _ => false end.
(** cancel, thread_win.cpp:103-121. *)
Definition cancel (w : world) (o : tobj) : world * tobj :=
  let w1 := match o_handle o with
            | Some t =>
              let th := match nth_error (threads w) t with
                        | Some (s, k) => if alive s then set_nth (threads w) t (Killed, k) else threads w
                        | None => threads w end in
              mkW th (tasks w) (remove Nat.eq_dec t (handles w)) (object w)
            | None => w end in
  let w2 := match o_task o with Some k => mkW (threads w1) (set_nth (tasks w1) k false) (handles w1) (object w1) | None => w1 end in
  (w2, mkO None None false).
Definition with_object (w : world) (o : option tobj) : world := mkW (threads w) (tasks w) (handles w) o.
Definition thrown (r : reply) : bool := match r with ThrowBusy | ThrowUnknown | ThrowPriority => true | _ => false end.
Definition t_step (debug : bool) (w : world) (c : wcall) : woutcome :=
  match c with
  | TConstruct => match object w with None => WNext (with_object w (Some (mkO None None false))) Silent | Some _ => WBlocked end
  | TConstructStart p cr ok =>
    match object w with
    | Some _ => WBlocked
    | None =>                     (* thread_win.cpp:32-39: if start throws, there is no object and its destructor does not run *)
      let '(w1, o, r) := start debug w (mkO None None false) p cr ok in
      if thrown r then WNext (with_object w1 None) r else WNext (with_object w1 (Some o)) Silent
    end
  | TStart p cr ok =>
    match object w with
    | None => WBlocked
    | Some o => let '(w1, o1, r) := start debug w o p cr ok in WNext (with_object w1 (Some o1)) r
    end
  | TCancel => match object w with None => WBlocked | Some o => let '(w1, o1) := cancel w o in WNext (with_object w1 (Some o1)) Silent end
  | TJoin =>                      (* thread_win.cpp:123-129 *)
    match object w with
    | None => WBlocked
    | Some o => match o_handle o with
                | None => WNext w Silent
                | Some t => match nth_error (threads w) t with Some (s, _) => if alive s then WBlocked else WNext w Silent | None => WUndefined end
                end
    end
  | TIsRunning => match object w with None => WBlocked | Some o => WNext w (Answer (match o_task o with Some _ => true | None => false end)) end
  | TDestroy =>                   (* thread_win.cpp:99-101 *)
    match object w with None => WBlocked | Some o => let '(w1, _) := cancel w o in WNext (with_object w1 None) Silent end
  | TBegin t =>
    match nth_error (threads w) t with
    | Some (Fresh, k) => if nth k (tasks w) false then WNext (mkW (set_nth (threads w) t (Working, k)) (tasks w) (handles w) (object w)) Silent else WUndefined
    | _ => WBlocked
    end
  | TFinish t =>
    match nth_error (threads w) t with
    | Some (Working, k) => if nth k (tasks w) false then WNext (mkW (set_nth (threads w) t (Finished, k)) (tasks w) (handles w) (object w)) Silent else WUndefined
    | _ => WBlocked
    end
  end.
Fixpoint t_run (debug : bool) (w : world) (l : list wcall) : woutcome :=
  match l with
  | [] => WNext w Silent
  | [c] => t_step debug w c
  | c :: tl => match t_step debug w c with WNext w1 _ => t_run debug w1 tl | o => o end
  end.
