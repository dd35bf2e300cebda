(** Model of ecl_threads: Mutex, Threadable, Thread and the priority tables.
    Threads are numbered by [nat] without bound; a schedule is a list of (thread, action)
    pairs and is executed one atomic action at a time.  The pthread functions are modelled by
    their POSIX contract; the wrapper code around them is modelled statement by statement.
    Memory is sequentially consistent: plain loads and stores of an [unsigned int] or [bool]
    member are atomic but separate actions. *)
From Verif Require Import Base.

(** Update of a per-thread table.  Model infrastructure, no counterpart in /repo. *)
Definition fupd {A} (f : nat -> A) (t : nat) (v : A) : nat -> A :=
  fun u => if Nat.eqb u t then v else f u.

(** * Mutex (ecl_threads/src/lib/mutex_pos.cpp) *)

(** Where a thread stands inside a Mutex member function.  [++number_locks] and
    [--number_locks] (mutex_pos.cpp:71, 88, 108, 114) are a load followed by a store of a plain
    unsigned int (mutex_pos.hpp:158). *)
Inductive mpc : Type :=
| Rest                    (* not inside a member function *)
| LkLoad                  (* lock: about to load number_locks, mutex_pos.cpp:71 *)
| LkStore (v : Z)         (* lock: about to store v+1, :71 *)
| LkWait                  (* lock: in pthread_mutex_lock, :72 *)
| TdWait                  (* trylock(duration): in pthread_mutex_timedlock, :83 *)
| InLoad                  (* trylock succeeded, about to load number_locks, :88 and :108 *)
| InStore (v : Z)         (* trylock succeeded, about to store v+1, :88 and :108 *)
| UnLoad                  (* unlock: about to load number_locks, :114 *)
| UnStore (v : Z)         (* unlock: about to store v-1, :114 *)
| UnPost.                 (* unlock: about to call pthread_mutex_unlock, :115 *)

(** Observable events of a run. *)
Inductive mev : Type :=
| LockCalled (t : nat)    (* lock() entered *)
| Acquired (t : nat)      (* lock() returned, or a trylock returned true *)
| Refused (t : nat)       (* a trylock returned false *)
| UnlockCalled (t : nat)  (* unlock() entered *)
| Unlocked (t : nat)      (* unlock() returned *)
| Threw (t : nat)         (* a StandardException left the member function (debug builds) *)
| Undefined (t : nat).    (* behaviour POSIX leaves undefined *)

(** Actions a schedule can contain. *)
Inductive mact : Type :=
| CallLock | CallTry | CallTimed | CallUnlock   (* enter a member function *)
| Go                                            (* next atomic action inside it *)
| TimeOut.                                      (* the timed wait expires *)

(** pthread mutex owner, number_locks, and the position of every thread. *)
Record mst : Type := MkM { m_owner : option nat; m_count : Z; m_pc : nat -> mpc }.

(** Mutex::Mutex(false), mutex_pos.cpp:33-60; failures of the attribute calls are not modelled. *)
Definition m_init : mst := MkM None 0 (fun _ => Rest).

Definition m_owned_by (s : mst) (t : nat) : bool :=
  match m_owner s with Some u => Nat.eqb u t | None => false end.

Definition m_goto (s : mst) (t : nat) (p : mpc) : mst := MkM (m_owner s) (m_count s) (fupd (m_pc s) t p).

(** One atomic action of thread [t]; [None] when the action is not possible now (blocked, or not
    at that point).  [debug] selects PTHREAD_MUTEX_ERRORCHECK and throwing asserts
    (mutex_pos.cpp:43-47), release builds use PTHREAD_MUTEX_NORMAL and ignore results. *)
Definition m_step (debug : bool) (s : mst) (t : nat) (a : mact) : option (mst * list mev) :=
  match m_pc s t, a with
  (* lock, mutex_pos.cpp:69-75 *)
  | Rest, CallLock => Some (m_goto s t LkLoad, [LockCalled t])
  | LkLoad, Go => Some (m_goto s t (LkStore (m_count s)), [])
  | LkStore v, Go => Some (MkM (m_owner s) (u32 (v + 1)) (fupd (m_pc s) t LkWait), [])
  | LkWait, Go =>
      match m_owner s with
      | None => Some (MkM (Some t) (m_count s) (fupd (m_pc s) t Rest), [Acquired t])
      | Some u => if Nat.eqb u t && debug
                  then Some (m_goto s t Rest, [Threw t])      (* EDEADLK *)
                  else None                                   (* blocks; NORMAL self-deadlock *)
      end
  (* trylock, mutex_pos.cpp:96-110: one atomic pthread_mutex_trylock *)
  | Rest, CallTry =>
      match m_owner s with
      | None => Some (MkM (Some t) (m_count s) (fupd (m_pc s) t InLoad), [])
      | Some _ => Some (s, [Refused t])                       (* EBUSY *)
      end
  (* trylock(duration), mutex_pos.cpp:77-94; the deadline arithmetic is [timed_result] below *)
  | Rest, CallTimed => Some (m_goto s t TdWait, [])
  | TdWait, Go =>
      match m_owner s with
      | None => Some (MkM (Some t) (m_count s) (fupd (m_pc s) t InLoad), [])
      | Some u => if Nat.eqb u t && debug then Some (m_goto s t Rest, [Threw t]) else None
      end
  | TdWait, TimeOut =>
      match m_owner s with
      | None => None                                          (* a free mutex is taken at once *)
      | Some _ => Some (m_goto s t Rest, [Refused t])
      end
  | InLoad, Go => Some (m_goto s t (InStore (m_count s)), [])
  | InStore v, Go => Some (MkM (m_owner s) (u32 (v + 1)) (fupd (m_pc s) t Rest), [Acquired t])
  (* unlock, mutex_pos.cpp:112-118 *)
  | Rest, CallUnlock => Some (m_goto s t UnLoad, [UnlockCalled t])
  | UnLoad, Go => Some (m_goto s t (UnStore (m_count s)), [])
  | UnStore v, Go => Some (MkM (m_owner s) (u32 (v - 1)) (fupd (m_pc s) t UnPost), [])
  | UnPost, Go =>
      if m_owned_by s t then Some (MkM None (m_count s) (fupd (m_pc s) t Rest), [Unlocked t])
      else if debug then Some (m_goto s t Rest, [Threw t])    (* EPERM *)
      else Some (m_goto s t Rest, [Undefined t])              (* NORMAL mutex: undefined *)
  | _, _ => None
  end.

(** Execution of a schedule; events in chronological order.  [None] if an action was not possible. *)
Fixpoint m_run (debug : bool) (s : mst) (sch : list (nat * mact)) : option (mst * list mev) :=
  match sch with
  | [] => Some (s, [])
  | (t, a) :: rest =>
      match m_step debug s t a with
      | None => None
      | Some (s1, e1) =>
          match m_run debug s1 rest with
          | None => None
          | Some (s2, e2) => Some (s2, e1 ++ e2)
          end
      end
  end.

(** Mutex::locks, mutex_pos.hpp:146. *)
Definition m_locks (s : mst) : Z := m_count s.

(** Mutex::trylock(Duration&), mutex_pos.cpp:79-87, in time: pthread_mutex_timedlock takes an
    absolute deadline, and the code hands it the duration itself.  Times are nanoseconds since
    the epoch; [free_at] is the moment the mutex becomes free.  The result is true exactly when
    the mutex is free by the deadline or already free at the call. *)
Definition timed_deadline (now duration : Z) : Z := duration.
Definition timed_result (now duration free_at : Z) : bool :=
  (free_at <=? now) || (free_at <=? timed_deadline now duration).

(** * Threadable (ecl_threads/include/ecl/threads/threadable.hpp) *)

(** A caller inside Threadable::start (threadable.hpp:79-84). *)
Inductive spc : Type :=
| SRest
| SCheck                  (* about to read isRunning, :80 *)
| SSet                    (* read false, about to write true, :81 *)
| SCreate.                (* about to create the thread, :82 *)

(** Shared isRunning (a plain Parameter<bool>, :90), callers, and the workers: [t_busy] counts
    workers executing runnable() (from creation until they write isRunning(false), :98-101). *)
Record tst : Type := MkT { t_flag : bool; t_pc : nat -> spc; t_busy : nat }.

Definition t_init : tst := MkT false (fun _ => SRest) 0.   (* threadable.hpp:93 *)

Inductive tact : Type :=
| TStart (caller : nat)                  (* enter start() *)
| TGo (caller : nat) (created : bool)    (* next action of start(); [created] is pthread_create's success *)
| TWorkerDone.                           (* some worker leaves runnable() and writes isRunning(false) *)

Inductive tev : Type :=
| Started (caller : nat)      (* start() returned true *)
| NotStarted (caller : nat)   (* start() returned false *)
| StartThrew (caller : nat)   (* the Thread constructor threw (debug) *)
| Launched                    (* a worker thread began *)
| Finished.                   (* a worker finished *)

(** The Thread constructor starts one detached thread (thread_pos.hpp:435-443, 454-474); when
    pthread_create fails it throws in debug builds and is silent in release builds. *)
Definition t_step (debug : bool) (s : tst) (a : tact) : option (tst * list tev) :=
  match a with
  | TStart c =>
      match t_pc s c with
      | SRest => Some (MkT (t_flag s) (fupd (t_pc s) c SCheck) (t_busy s), [])
      | _ => None
      end
  | TGo c created =>
      match t_pc s c with
      | SRest => None
      | SCheck => if t_flag s then Some (MkT (t_flag s) (fupd (t_pc s) c SRest) (t_busy s), [NotStarted c])
                  else Some (MkT (t_flag s) (fupd (t_pc s) c SSet) (t_busy s), [])
      | SSet => Some (MkT true (fupd (t_pc s) c SCreate) (t_busy s), [])
      | SCreate =>
          if created then Some (MkT (t_flag s) (fupd (t_pc s) c SRest) (S (t_busy s)), [Launched; Started c])
          else Some (MkT (t_flag s) (fupd (t_pc s) c SRest) (t_busy s),
                     [if debug then StartThrew c else Started c])
      end
  | TWorkerDone =>
      match t_busy s with
      | O => None
      | S n => Some (MkT false (t_pc s) n, [Finished])
      end
  end.

Fixpoint t_run (debug : bool) (s : tst) (sch : list tact) : option (tst * list tev) :=
  match sch with
  | [] => Some (s, [])
  | a :: rest =>
      match t_step debug s a with
      | None => None
      | Some (s1, e1) =>
          match t_run debug s1 rest with None => None | Some (s2, e2) => Some (s2, e1 ++ e2) end
      end
  end.

(** * Thread (thread_pos.hpp:51-153, 233-496; thread_pos.cpp:33-130) *)

(** Progress of the spawned pthread through EntryPoint, thread_pos.hpp:94-101. *)
Inductive wpc : Type :=
| WNone                   (* no pthread was created *)
| WPrio                   (* about to read ptr->priority_level, :96 *)
| WCall                   (* about to call ptr->function, :97 *)
| WRun                    (* inside the user's function *)
| WDelete                 (* about to delete ptr, :98 *)
| WExit.                  (* terminated *)

(** The controlling thread: idle, blocked in join, or the Thread object is gone. *)
Inductive opc : Type := OIdle | OJoin | OGone.

(** The Thread object's members (thread_pos.hpp:417-422), the heap cell of its task and the pthread. *)
Record hst : Type := MkH {
  h_task : bool;          (* thread_task != NULL *)
  h_started : bool;       (* has_started *)
  h_joinreq : bool;       (* join_requested *)
  h_live : bool;          (* the ThreadTask is allocated *)
  h_worker : wpc;
  h_pending : bool;       (* a cancellation request is pending *)
  h_reaped : bool;        (* the handle was joined or detached: it may not be used again *)
  h_obj : opc
}.

(** Thread::Thread(), thread_pos.hpp:242-248. *)
Definition h_init : hst := MkH false false false false WNone false false OIdle.

Inductive hact : Type :=
| HStart (created : bool)   (* start(...), [created] is pthread_create's success *)
| HJoin                     (* enter join() *)
| HJoined                   (* pthread_join returns *)
| HCancel | HDestroy
| HIsRunning
| HWork                     (* the spawned thread makes one step *)
| HCancelPoint.             (* the spawned thread acts on a pending cancellation inside the function *)

Inductive hev : Type :=
| StartRet (e : err)        (* start returned Error(e) *)
| StartExc (e : err)        (* start threw *)
| Created                   (* a pthread began *)
| FunctionDone              (* the user's function returned *)
| TaskFreed                 (* the task was deleted *)
| JoinRet                   (* join returned *)
| CancelRet
| IsRunningRet (b : bool)
| Destroyed.

(** [h_free]: delete thread_task; deleting twice is undefined. *)
Definition h_free (s : hst) : res hst :=
  if h_live s then
    Ok (MkH (h_task s) (h_started s) (h_joinreq s) false (h_worker s) (h_pending s) (h_reaped s) (h_obj s))
  else UB.

Definition h_set_worker (s : hst) (w : wpc) : hst :=
  MkH (h_task s) (h_started s) (h_joinreq s) (h_live s) w (h_pending s) (h_reaped s) (h_obj s).

(** One action.  [None]: not possible now.  Using the handle of a pthread that was never
    created, or was joined or detached, is undefined (POSIX). *)
Definition h_step (debug : bool) (s : hst) (a : hact) : option (res (hst * list hev)) :=
  match a with
  (* Thread::start, thread_pos.cpp:41-61 (and the templates thread_pos.hpp:454-496) *)
  | HStart created =>
      match h_obj s with
      | OIdle =>
          if h_started s then
            Some (Ok (s, [if debug then StartExc BusyError else StartRet BusyError]))
          else if created then
            Some (Ok (MkH true true (h_joinreq s) true WPrio false (h_reaped s) OIdle, [Created; StartRet NoError]))
          else   (* task allocated, freed and reset to NULL again, :54-59 *)
            Some (Ok (MkH false true (h_joinreq s) false (h_worker s) (h_pending s) (h_reaped s) OIdle,
                      [TaskFreed; if debug then StartExc MemoryError else StartRet MemoryError]))
      | _ => None
      end
  (* Thread::join, thread_pos.cpp:94-101 *)
  | HJoin =>
      match h_obj s with
      | OIdle =>
          let s1 := MkH (h_task s) (h_started s) true (h_live s) (h_worker s) (h_pending s) (h_reaped s) OIdle in
          if h_task s then
            if h_reaped s then Some UB
            else Some (Ok (MkH (h_task s) (h_started s) true (h_live s) (h_worker s) (h_pending s) (h_reaped s) OJoin, []))
          else Some (Ok (s1, [JoinRet]))
      | _ => None
      end
  | HJoined =>
      match h_obj s, h_worker s with
      | OJoin, WExit =>
          Some (Ok (MkH (h_task s) (h_started s) (h_joinreq s) (h_live s) (h_worker s) (h_pending s) true OIdle, [JoinRet]))
      | _, _ => None
      end
  (* Thread::cancel, thread_pos.cpp:80-92 *)
  | HCancel =>
      match h_obj s with
      | OIdle =>
          match h_worker s with
          | WNone => Some UB
          | _ =>
              if h_reaped s then Some UB
              else if h_task s then
                Some (s1 <- h_free s ;;
                      Ok (MkH false (h_started s1) (h_joinreq s1) (h_live s1) (h_worker s1) true (h_reaped s1) OIdle,
                          [TaskFreed; CancelRet]))
              else Some (Ok (MkH false (h_started s) (h_joinreq s) (h_live s) (h_worker s) true (h_reaped s) OIdle,
                             [CancelRet]))
          end
      | _ => None
      end
  (* Thread::~Thread, thread_pos.cpp:63-79 *)
  | HDestroy =>
      match h_obj s with
      | OIdle =>
          if h_started s && negb (h_joinreq s) then
            match h_worker s with
            | WNone => Some UB                     (* pthread_detach of a handle never set *)
            | _ => if h_reaped s then Some UB
                   else Some (Ok (MkH (h_task s) (h_started s) (h_joinreq s) (h_live s) (h_worker s)
                                      (h_pending s) true OGone, [Destroyed]))
            end
          else Some (Ok (MkH (h_task s) (h_started s) (h_joinreq s) (h_live s) (h_worker s)
                             (h_pending s) (h_reaped s) OGone, [Destroyed]))
      | _ => None
      end
  (* Thread::isRunning, thread_pos.hpp:384 *)
  | HIsRunning =>
      match h_obj s with OIdle => Some (Ok (s, [IsRunningRet (h_task s)])) | _ => None end
  (* ThreadTask::EntryPoint, thread_pos.hpp:94-101: every use of *ptr needs the task allocated *)
  | HWork =>
      match h_worker s with
      | WNone | WExit => None
      | WPrio => if h_live s then Some (Ok (h_set_worker s WCall, [])) else Some UB
      | WCall => if h_live s then Some (Ok (h_set_worker s WRun, [])) else Some UB
      | WRun => Some (Ok (h_set_worker s WDelete, [FunctionDone]))
      | WDelete => Some (s1 <- h_free s ;; Ok (h_set_worker s1 WExit, [TaskFreed]))
      end
  | HCancelPoint =>
      match h_worker s with
      | WRun => if h_pending s then Some (Ok (h_set_worker s WExit, [])) else None
      | _ => None
      end
  end.

Fixpoint h_run (debug : bool) (s : hst) (sch : list hact) : option (res (hst * list hev)) :=
  match sch with
  | [] => Some (Ok (s, []))
  | a :: rest =>
      match h_step debug s a with
      | None => None
      | Some (Ok (s1, e1)) =>
          match h_run debug s1 rest with
          | None => None
          | Some (Ok (s2, e2)) => Some (Ok (s2, e1 ++ e2))
          | Some (Throw e) => Some (Throw e)
          | Some UB => Some UB
          end
      | Some (Throw e) => Some (Throw e)
      | Some UB => Some UB
      end
  end.

(** * Priorities (priority_common.hpp, priority_pos.cpp) *)

(** enum Priority, ecl_threads/include/ecl/threads/priority_common.hpp. *)
Inductive prio : Type :=
| DefaultP | UnknownP | BackgroundP | LowP | NormalP | HighP | CriticalP
| RT1 | RT2 | RT3 | RT4.

(** priority_level - RealTimePriority1 for the real-time levels, priority_pos.cpp:67. *)
Definition rt_index (p : prio) : option Z :=
  match p with RT1 => Some 0 | RT2 => Some 1 | RT3 => Some 2 | RT4 => Some 3 | _ => None end.

(** priority_pos.cpp:67; C++ integer division truncates. *)
Definition rt_value (rr_min rr_max i : Z) : Z := rr_min + Z.quot (i * (rr_max - rr_min)) 10.

(** PRIO_MIN and PRIO_MAX of <sys/resource.h> on Linux. *)
Definition prio_min : Z := -20.
Definition prio_max : Z := 20.

(** The niceness set_priority asks for, priority_pos.cpp:88-113. *)
Definition nice_request (p : prio) : option Z :=
  match p with
  | CriticalP => Some prio_min
  | HighP => Some (prio_min + Z.quot (prio_max - prio_min) 4)
  | NormalP => Some (prio_min + Z.quot (prio_max - prio_min) 2)
  | LowP => Some (prio_min + Z.quot (3 * (prio_max - prio_min)) 4)
  | BackgroundP => Some prio_max
  | _ => None
  end.

(** Scheduling state of the process: either SCHED_OTHER with a niceness, or SCHED_RR with a
    real-time priority (the niceness is kept).  Other policies are not modelled. *)
Record sched : Type := MkSched { sc_rr : option Z; sc_nice : Z }.

(** setpriority(2) on Linux: clamps to [-20, 19]; lowering the niceness needs privilege. *)
Definition os_setpriority (privileged : bool) (s : sched) (n : Z) : bool * sched :=
  let n1 := Z.max (-20) (Z.min n 19) in
  if (n1 <? sc_nice s) && negb privileged then (false, s)
  else (true, MkSched (sc_rr s) n1).

(** set_real_time_priority, priority_pos.cpp:300-336, with sched_setscheduler(2): privilege needed. *)
Definition set_real_time (debug privileged : bool) (rr_min rr_max : Z) (s : sched) (v : Z) : res (bool * sched) :=
  if v <? rr_min then Throw OutOfRangeError
  else if v >? rr_max then Throw OutOfRangeError
  else if privileged then Ok (true, MkSched (Some v) (sc_nice s))
  else if debug then Throw PermissionsError else Ok (false, s).

(** set_priority, priority_pos.cpp:40-119.  Only the CriticalPriority branch looks at the result
    of setpriority. *)
Definition set_priority (debug privileged : bool) (rr_min rr_max : Z) (s : sched) (p : prio) : res (bool * sched) :=
  match rt_index p with
  | Some i => set_real_time debug privileged rr_min rr_max s (rt_value rr_min rr_max i)
  | None =>
      match nice_request p with
      | None => Ok (true, s)
      | Some n =>
          let (ok, s1) := os_setpriority privileged s n in
          match p with
          | CriticalP => if ok then Ok (true, s1)
                         else if debug then Throw PermissionsError else Ok (false, s1)
          | _ => Ok (true, s1)
          end
      end
  end.

(** get_priority, priority_pos.cpp:121-183. *)
Definition get_priority (rr_min rr_max : Z) (s : sched) : prio :=
  match sc_rr s with
  | Some v =>
      if v >=? rr_min + Z.quot (3 * (rr_max - rr_min)) 10 then RT4
      else if v >=? rr_min + Z.quot (2 * (rr_max - rr_min)) 10 then RT3
      else if v >=? rr_min + Z.quot (rr_max - rr_min) 10 then RT2
      else RT1
  | None =>
      let n := sc_nice s in
      if n =? prio_min then CriticalP
      else if n =? prio_min + Z.quot (prio_max - prio_min) 4 then HighP
      else if n =? prio_min + Z.quot (prio_max - prio_min) 2 then NormalP
      else if n =? prio_min + Z.quot (3 * (prio_max - prio_min)) 4 then LowP
      else if n =? prio_max then BackgroundP
      else NormalP
  end.
