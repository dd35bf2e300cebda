(** Model of the Windows mutex: /repo/ecl_threads/src/lib/mutex_w32.cpp:32-63 and mutex_w32.hpp:125-128.
    Any number of threads, numbered; each event is one atomic step of one of them: an interlocked operation, entering or leaving
    the critical section, or reading number_locks. A CRITICAL_SECTION may be entered again by the thread that owns it (Windows
    documentation), and leaving one that the caller does not own is undefined. Construction and destruction are not modelled:
    a mutex made with locked = true is one whose constructing thread calls lock() first. *)
From Coq Require Import ZArith List.
Import ListNotations.
Open Scope Z_scope.

(** Where a thread is: outside; past the increment of lock() (mutex_w32.cpp:44), waiting in EnterCriticalSection, called by lock or by trylock;
    past the test of trylock() (53-54); past LeaveCriticalSection in unlock() (61). *)
Inductive place := Outside | Entering (by_try : bool) | Tested | Left.
(** owner: the thread and how often it entered. *)
Record cs := mkCs { locks : Z; owner : option (nat * Z); at_ : nat -> place }.
Definition cs0 : cs := mkCs 0 None (fun _ => Outside).
Definition move (s : cs) (t : nat) (p : place) : nat -> place := fun u => if Nat.eqb u t then p else at_ s u.
Inductive event :=
| ELock (t : nat)        (* lock() called: InterlockedIncrement, 44 *)
| EEnter (t : nat)       (* EnterCriticalSection returns and with it lock() or trylock() = true, 45, 56 *)
| ETest (t : nat)        (* trylock() called, number_locks = 0, 53; trylock(duration) is the same, 48-50 *)
| ERefuse (t : nat)      (* trylock() called, number_locks > 0: returns false, 53-54 *)
| ETryLock (t : nat)     (* the increment of lock() called by trylock(), 55, 44 *)
| EUnlock (t : nat)      (* unlock() called: LeaveCriticalSection, 61 *)
| EUnlocked (t : nat).   (* InterlockedDecrement, unlock() returns, 62 *)
Inductive outcome := Next (s : cs) | Blocked | Undefined.
Definition wrap32 (z : Z) : Z := z mod 2 ^ 32.
Definition w_event (s : cs) (e : event) : outcome :=
  match e with
  | ELock t => match at_ s t with Outside => Next (mkCs (wrap32 (locks s + 1)) (owner s) (move s t (Entering false))) | _ => Blocked end
  | EEnter t =>
    match at_ s t, owner s with
    | Entering _, None => Next (mkCs (locks s) (Some (t, 1)) (move s t Outside))
    | Entering _, Some (u, d) => if Nat.eqb u t then Next (mkCs (locks s) (Some (t, d + 1)) (move s t Outside)) else Blocked
    | _, _ => Blocked
    end
  | ETest t => match at_ s t with Outside => if 0 <? locks s then Blocked else Next (mkCs (locks s) (owner s) (move s t Tested)) | _ => Blocked end
  | ERefuse t => match at_ s t with Outside => if 0 <? locks s then Next s else Blocked | _ => Blocked end
  | ETryLock t => match at_ s t with Tested => Next (mkCs (wrap32 (locks s + 1)) (owner s) (move s t (Entering true))) | _ => Blocked end
  | EUnlock t =>
    match at_ s t, owner s with
    | Outside, Some (u, d) => if Nat.eqb u t then Next (mkCs (locks s) (if d =? 1 then None else Some (u, d - 1)) (move s t Left)) else Undefined
    | Outside, None => Undefined
    | _, _ => Blocked
    end
  | EUnlocked t => match at_ s t with Left => Next (mkCs (wrap32 (locks s - 1)) (owner s) (move s t Outside)) | _ => Blocked end
  end.
(** A schedule: events that all take place. *)
Fixpoint w_events (s : cs) (l : list event) : outcome :=
  match l with [] => Next s | e :: tl => match w_event s e with Next s' => w_events s' tl | o => o end end.
