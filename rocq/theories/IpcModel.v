(** Model of ecl_ipc: named semaphores and shared memory, POSIX versions.
    Processes are numbered by [nat] without bound; the kernel objects follow their POSIX contract. *)
From Verif Require Import Base ThreadModel.

(** * Semaphore (ecl_ipc/src/lib/semaphore_pos.cpp) *)

(** Where a process stands inside a Semaphore member function. *)
Inductive ppc : Type :=
| PRest
| PWait                   (* lock: in sem_wait, semaphore_pos.cpp:106; trylock(timeout): in sem_timedwait, :158 *)
| PTimed
| PCount                  (* unlock: about to read the count, :121 *)
| PPost.                  (* unlock: about to sem_post, :124 *)

Inductive pev : Type :=
| PAcquired (p : nat)     (* lock() returned, or a trylock returned true *)
| PRefused (p : nat)      (* a trylock returned false *)
| PUnlockCalled (p : nat)
| PUnlocked (p : nat).

Inductive pact : Type :=
| PLock | PTry | PTryTimed | PUnlock     (* enter a member function *)
| PGo                                    (* next atomic action inside it *)
| PExpire                                (* sem_timedwait gives up (time or signal) *)
| PSignal.                               (* a signal handler interrupts sem_wait: EINTR *)

(** Value of one kernel semaphore and the position of every process using it. *)
Record pst : Type := MkP { p_count : Z; p_pc : nat -> ppc }.

(** sem_open with initial value 1, semaphore_pos.cpp:87-92. *)
Definition p_init : pst := MkP 1 (fun _ => PRest).

Definition p_goto (s : pst) (p : nat) (c : ppc) : pst := MkP (p_count s) (fupd (p_pc s) p c).

Definition p_step (s : pst) (p : nat) (a : pact) : option (pst * list pev) :=
  match p_pc s p, a with
  (* lock, semaphore_pos.cpp:104-107: the result of sem_wait is ignored *)
  | PRest, PLock => Some (p_goto s p PWait, [])
  | PWait, PGo => if 0 <? p_count s
                  then Some (MkP (p_count s - 1) (fupd (p_pc s) p PRest), [PAcquired p]) else None
  | PWait, PSignal => Some (p_goto s p PRest, [PAcquired p])
  (* trylock, semaphore_pos.cpp:128-138 *)
  | PRest, PTry => if 0 <? p_count s
                   then Some (MkP (p_count s - 1) (p_pc s), [PAcquired p]) else Some (s, [PRefused p])
  (* trylock(timeout), semaphore_pos.cpp:140-174 (release build: any failure returns false) *)
  | PRest, PTryTimed => Some (p_goto s p PTimed, [])
  | PTimed, PGo => if 0 <? p_count s
                   then Some (MkP (p_count s - 1) (fupd (p_pc s) p PRest), [PAcquired p]) else None
  | PTimed, PExpire => Some (p_goto s p PRest, [PRefused p])
  (* unlock, semaphore_pos.cpp:117-126 *)
  | PRest, PUnlock => Some (p_goto s p PCount, [PUnlockCalled p])
  | PCount, PGo => if p_count s =? 1 then Some (p_goto s p PRest, [PUnlocked p])
                   else Some (p_goto s p PPost, [])
  | PPost, PGo => Some (MkP (p_count s + 1) (fupd (p_pc s) p PRest), [PUnlocked p])
  | _, _ => None
  end.

Fixpoint p_run (s : pst) (sch : list (nat * pact)) : option (pst * list pev) :=
  match sch with
  | [] => Some (s, [])
  | (p, a) :: rest =>
      match p_step s p a with
      | None => None
      | Some (s1, e1) => match p_run s1 rest with None => None | Some (s2, e2) => Some (s2, e1 ++ e2) end
      end
  end.

(** Semaphore::trylock(timeout), deadline computation, semaphore_pos.cpp:148-153.
    [now] is epoch_time's (seconds, nanoseconds), [timeout] the Duration's. *)
Definition sem_deadline (now timeout : Z * Z) : Z * Z :=
  let sec := fst now + fst timeout in
  let tnsec := snd now + snd timeout in
  let sec1 := if tnsec >=? 999999999 then sec + 1 else sec in
  (sec1, Z.rem tnsec 1000000000).

(** * Names: construction and destruction of Semaphore objects (semaphore_pos.cpp:45-102) *)

(** One name.  [n_reg] is the kernel semaphore the name refers to, [n_next] the next fresh kernel
    semaphore, [n_handle p] the semaphore process [p]'s object is attached to. *)
Record nst : Type := MkN { n_reg : option nat; n_next : nat; n_handle : nat -> option nat }.

Definition n_init : nst := MkN None 0 (fun _ => None).

Inductive nact : Type := NOpen (p : nat) | NDestroy (p : nat).

(** sem_open(O_CREAT), :92; sem_close and sem_unlink, :99-101.  Permission failures not modelled. *)
Definition n_step (s : nst) (a : nact) : option nst :=
  match a with
  | NOpen p =>
      match n_handle s p, n_reg s with
      | Some _, _ => None
      | None, Some k => Some (MkN (Some k) (n_next s) (fupd (n_handle s) p (Some k)))
      | None, None => Some (MkN (Some (n_next s)) (S (n_next s)) (fupd (n_handle s) p (Some (n_next s))))
      end
  | NDestroy p =>
      match n_handle s p with
      | None => None
      | Some _ => Some (MkN None (n_next s) (fupd (n_handle s) p None))
      end
  end.

Fixpoint n_run (s : nst) (sch : list nact) : option nst :=
  match sch with
  | [] => Some s
  | a :: rest => match n_step s a with None => None | Some s1 => n_run s1 rest end
  end.

(** * SharedMemory (shared_memory_pos.hpp:94-246, shared_memory_pos.cpp:39-100) *)

(** A process's progress through the constructor, then its attachment. [manager] is
    shared_memory_manager. *)
Inductive spos : Type :=
| MNone
| MOpened (seg : nat) (manager : bool)     (* open() done, :90-96; mmap next, hpp:196 *)
| MMapped (seg : nat) (manager : bool)     (* mmap done; ftruncate next, hpp:207 *)
| MSized (seg : nat) (manager : bool)      (* ftruncate done; the manager initialises next, hpp:227-229 *)
| MAttached (seg : nat) (manager : bool).  (* constructed: data() may be used *)

(** The name, the contents of every segment ever created, its length in bytes, and the processes.
    The Storage value is abstracted to one [Z]; [Storage()] is 0.  A fresh segment has length 0. *)
Record shst : Type := MkS {
  s_reg : option nat;
  s_segs : list Z;
  s_len : list Z;
  s_pos : nat -> spos
}.

Definition s_init : shst := MkS None [] [] (fun _ => MNone).

Inductive sact : Type :=
| SBegin (p : nat)                (* constructor: shm_open with O_CREAT|O_EXCL, else open *)
| SNext (p : nat)                 (* next statement of the constructor *)
| SWrite (p : nat) (v : Z)        (* *data() = v *)
| SRead (p : nat) (v : Z)         (* *data() reads v *)
| SDestroy (p : nat).             (* destructor, hpp:236-246 *)

(** shm_open, mmap and ftruncate are assumed to succeed.  [need p] is sizeof(Storage) in process
    [p] (shared_memory_size, hpp:173); access beyond the length of the segment (SIGBUS) is
    undefined behaviour. *)
Definition s_step (need : nat -> Z) (s : shst) (a : sact) : option (res shst) :=
  match a with
  | SBegin p =>
      match s_pos s p, s_reg s with
      | MNone, Some k => Some (Ok (MkS (s_reg s) (s_segs s) (s_len s) (fupd (s_pos s) p (MOpened k false))))
      | MNone, None =>
          let k := length (s_segs s) in
          Some (Ok (MkS (Some k) (s_segs s ++ [0]) (s_len s ++ [0]) (fupd (s_pos s) p (MOpened k true))))
      | _, _ => None
      end
  | SNext p =>
      match s_pos s p with
      | MOpened k m => Some (Ok (MkS (s_reg s) (s_segs s) (s_len s) (fupd (s_pos s) p (MMapped k m))))
      | MMapped k m =>   (* ftruncate sets the length, also when the segment already exists *)
          Some (Ok (MkS (s_reg s) (s_segs s) (upd k (need p) (s_len s)) (fupd (s_pos s) p (MSized k m))))
      | MSized k m =>
          if m then
            if nth k (s_len s) 0 <? need p then Some UB
            else Some (Ok (MkS (s_reg s) (upd k 0 (s_segs s)) (s_len s) (fupd (s_pos s) p (MAttached k m))))
          else Some (Ok (MkS (s_reg s) (s_segs s) (s_len s) (fupd (s_pos s) p (MAttached k m))))
      | _ => None
      end
  | SWrite p v =>
      match s_pos s p with
      | MAttached k m =>
          if nth k (s_len s) 0 <? need p then Some UB
          else Some (Ok (MkS (s_reg s) (upd k v (s_segs s)) (s_len s) (s_pos s)))
      | _ => None
      end
  | SRead p v =>
      match s_pos s p with
      | MAttached k m =>
          if nth k (s_len s) 0 <? need p then Some UB
          else if nth k (s_segs s) 0 =? v then Some (Ok s) else None
      | _ => None
      end
  | SDestroy p =>
      match s_pos s p with
      | MAttached k m =>   (* munmap; the manager removes the name *)
          Some (Ok (MkS (if m then None else s_reg s) (s_segs s) (s_len s) (fupd (s_pos s) p MNone)))
      | _ => None
      end
  end.

Fixpoint s_run (need : nat -> Z) (s : shst) (sch : list sact) : option (res shst) :=
  match sch with
  | [] => Some (Ok s)
  | a :: rest =>
      match s_step need s a with
      | None => None
      | Some (Ok s1) => s_run need s1 rest
      | Some r => Some r
      end
  end.
