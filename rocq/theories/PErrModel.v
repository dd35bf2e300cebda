(** What threads, mutexes, priorities, clocks, semaphores and shared memory make of the results of their system calls.
    Files: ecl_threads/include/ecl/threads/{thread_exceptions_pos,mutex_pos,priority_pos}.hpp, ecl_threads/src/lib/{thread_pos,mutex_pos}.cpp,
    ecl_time/include/ecl/time/sleep_pos.hpp, ecl_time/src/lib/{sleep_pos,timestamp_pos}.cpp, ecl_ipc/src/lib/{semaphore_pos,shared_memory_pos}.cpp.
    Every call is given the number the system returned (0: success; Linux numbering).  Exceptions are enabled; [debug] is a build in which
    ecl_debug_throw and ecl_assert_throw throw.  Messages and locations are not modelled. *)
From Verif Require Import Base.
Open Scope Z_scope.

(** The flags used; the enum lives in ecl_errors, outside /repo. *)
Inductive code :=
| CNone | CBlocking | CBusy | CConfiguration | CInterrupted | CInvalidArg | CInvalidInput | CMemory | CNotSupported | COutOfRange | COutOfResources
| CPermissions | CPosix | CUnknown | CUsage.
(** A switch over the error number: case labels with what they give, and the default. *)
Fixpoint pick (cases : list (Z * code)) (default : code) (e : Z) : code :=
  match cases with [] => default | (k, f) :: cs => if e =? k then f else pick cs default e end.

(** ** Tables *)
(** handlePthreadCreateError, thread_exceptions_pos.hpp:47-54; throwPthreadCreateException, 89-96.  EINVAL 22, EAGAIN 11, EPERM 1. *)
Definition create_error : Z -> code := pick [(22, CInvalidInput); (11, CMemory); (1, CPermissions)] CUnknown.
Definition create_exception : Z -> code := pick [(22, CInvalidInput); (11, CMemory); (1, CPermissions)] CUnknown.
(** throwPthreadJoinException, 104-111.  EDEADLK 35, ESRCH 3. *)
Definition join_exception : Z -> code := pick [(35, CUsage); (22, CInvalidInput); (3, CInvalidInput)] CUnknown.
(** throwPthreadCancelException, 118-123. *)
Definition cancel_exception : Z -> code := pick [(3, CInvalidInput)] CUnknown.
(** mutex_pos.hpp:184-195 (attributes), 204-218 (initialisation), 242-250 (timed lock), 259-268 (lock, try lock), 277-284 (unlock).  ENOMEM 12, EBUSY 16. *)
Definition attr_exception : Z -> code := pick [(22, CInvalidInput); (12, CMemory)] CUnknown.
Definition init_exception : Z -> code := pick [(22, CInvalidInput); (16, CInvalidInput); (11, CMemory); (12, CMemory); (1, CPermissions)] CUnknown.
Definition timed_exception : Z -> code := pick [(35, CUsage); (22, CUsage); (11, COutOfRange)] CUnknown.
Definition lock_exception : Z -> code := pick [(35, CUsage); (16, CConfiguration); (22, CInvalidInput); (11, COutOfRange)] CPosix.
Definition unlock_exception : Z -> code := pick [(22, CInvalidInput); (11, COutOfRange); (1, CPermissions)] CUnknown.
(** throwPriorityException, priority_pos.hpp:171-185.  EACCES 13. *)
Definition priority_exception : Z -> code := pick [(22, CInvalidInput); (3, CInvalidInput); (1, CPermissions); (13, CPermissions)] CUnknown.
(** throwSleepException, sleep_pos.hpp:331-345.  EINTR 4, EFAULT 14. *)
Definition sleep_exception : Z -> code := pick [(4, CInterrupted); (22, CInvalidInput); (14, CMemory)] CUnknown.
(** throwTimeStampException, timestamp_pos.cpp:81-93. *)
Definition stamp_exception : Z -> code := pick [(22, CNotSupported); (14, COutOfRange)] CUnknown.
(** openSemaphoreException, semaphore_pos.cpp:184-218; tryLockSemaphoreException, 220-239.  EEXIST 17, ENOENT 2, EMFILE 24, ENFILE 23, ENAMETOOLONG 36. *)
Definition sem_open_exception : Z -> code :=
  pick [(13, CPermissions); (17, CPermissions); (2, CConfiguration); (12, CMemory); (22, CInvalidArg); (24, COutOfResources); (23, COutOfResources); (36, CInvalidArg)] CUnknown.
Definition sem_try_exception : Z -> code := pick [(4, CInterrupted); (22, CInvalidArg); (11, CBlocking)] CUnknown.
(** openSharedSectionException, shared_memory_pos.cpp:109-138 (throws what the others return); memoryMapException, 141-178.  ENOSYS 38, EBADF 9, ENODEV 19. *)
Definition shm_open_exception : Z -> code :=
  pick [(13, CPermissions); (24, COutOfResources); (23, COutOfResources); (2, CInvalidArg); (36, CInvalidArg); (22, CInvalidArg); (38, CNotSupported)] CUnknown.
Definition map_exception : Z -> code :=
  pick [(13, CPermissions); (11, CMemory); (9, CInvalidArg); (22, CInvalidArg); (23, COutOfResources); (19, CNotSupported); (12, CMemory); (1, CPermissions)] CUnknown.

(** ** Calls *)
Inductive got (A : Type) := Gave (a : A) | Threw (c : code).
Arguments Gave {A} a. Arguments Threw {A} c.
(** ecl_assert_throw(r == 0, ...) followed by k. *)
Definition asserted {A} (debug : bool) (r : Z) (table : Z -> code) (k : got A) : got A := if debug && negb (r =? 0) then Threw (table r) else k.
(** Thread::start with the result of pthread_create, thread_pos.cpp:54-61 (a thread not started before): the error returned. *)
Definition thread_start (debug : bool) (r : Z) : got code :=
  if r =? 0 then Gave CNone else if debug then Threw (create_exception r) else Gave (create_error r).
(** Thread::cancel, 80-92, with the result of pthread_cancel: the table for joining is used. *)
Definition thread_cancel (debug : bool) (r : Z) : got unit := if r =? 0 then Gave tt else if debug then Threw (join_exception r) else Gave tt.
(** Thread::join of a thread that has a task, 94-101. *)
Definition thread_join (debug : bool) (r : Z) : got unit := asserted debug r join_exception (Gave tt).

(** Mutex: the counter number_locks is unsigned int.  Mutex::lock, mutex_pos.cpp:69-75: also what the counter is then. *)
Definition mutex_lock (debug : bool) (r n : Z) : got unit * Z := (asserted debug r lock_exception (Gave tt), (n + 1) mod 2 ^ 32).
(** Mutex::trylock(), 96-110. *)
Definition mutex_trylock (debug : bool) (r n : Z) : got bool * Z :=
  if r =? 16 then (Gave false, n) else if debug && negb (r =? 0) then (Threw (lock_exception r), n) else (Gave true, (n + 1) mod 2 ^ 32).
(** Mutex::trylock(duration), 77-94.  ETIMEDOUT 110. *)
Definition mutex_timed (debug : bool) (r n : Z) : got bool * Z :=
  if r =? 110 then (Gave false, n) else if debug && negb (r =? 0) then (Threw (timed_exception r), n) else (Gave true, (n + 1) mod 2 ^ 32).
(** Mutex::unlock, 112-118. *)
Definition mutex_unlock (debug : bool) (r n : Z) : got unit * Z := (asserted debug r unlock_exception (Gave tt), (n - 1) mod 2 ^ 32).
(** Mutex::Mutex(false), 33-60, with the results of the four calls: whether pthread_mutex_init was called and succeeded. *)
Definition mutex_make (debug : bool) (attr_init settype init attr_destroy : Z) : got bool :=
  asserted debug attr_init attr_exception (asserted debug settype attr_exception
    (let r := if settype =? 0 then init else settype in
     asserted debug r init_exception (asserted debug attr_destroy attr_exception (Gave (r =? 0))))).

(** pthread_mutex_timedlock (POSIX) on a mutex of another thread that keeps it for good, or on a free one: the nanoseconds of the deadline are
    only looked at if it has to wait. *)
Definition timedlock (held : bool) (nsec : Z) : Z := if negb held then 0 else if (nsec <? 0) || (1000000000 <=? nsec) then 22 else 110.
(** Mutex::trylock(duration) of a duration with these nanoseconds (mutex_pos.cpp:80-83). *)
Definition mutex_trylock_for (debug held : bool) (nsec n : Z) : got bool * Z := mutex_timed debug (timedlock held nsec) n.

(** Sleep::operator() with nanosleep's 0 or errno, sleep_pos.cpp:42-62 (the other sleepers alike); TimeStamp::stamp, timestamp_pos.cpp:55-60. *)
Definition sleep_call (debug : bool) (r : Z) : got unit := asserted debug r sleep_exception (Gave tt).
Definition stamp_call (debug : bool) (r : Z) : got unit := if r =? 0 then Gave tt else if debug then Threw (stamp_exception r) else Gave tt.
(** Semaphore::Semaphore(name), semaphore_pos.cpp:92-93: whether the object has a semaphore. *)
Definition semaphore_make (debug : bool) (r : Z) : got bool := asserted debug r sem_open_exception (Gave (r =? 0)).
(** Semaphore::trylock(), 128-138; trylock(timeout), 140-174: [clock]: the time could be read. *)
Definition semaphore_trylock (r : Z) : got bool := Gave (r =? 0).
Definition semaphore_trylock_for (debug clock : bool) (r : Z) : got bool :=
  if negb clock then Gave false
  else if r =? 0 then Gave true
  else if r =? 110 then Gave false
  else if debug then Threw (sem_try_exception r) else Gave false.
(** SharedMemory::SharedMemory, shared_memory_pos.hpp:176-202: shm_open and mmap; ecl_throw throws in every build with exceptions.  After a failed mmap
    the descriptor is closed and the name unlinked (shared_memory_pos.cpp:39-41) before errno is looked at: [closing] and [unlinking] are what these
    calls leave in errno, 0 if they succeed. *)
Definition shared_open (r : Z) : got unit := if r =? 0 then Gave tt else Threw (shm_open_exception r).
Definition shared_map (r closing unlinking : Z) : got unit :=
  if r =? 0 then Gave tt else Threw (map_exception (if unlinking =? 0 then if closing =? 0 then r else closing else unlinking)).
