(** Model of opening and closing serial ports on Windows: /repo/ecl_devices/src/lib/serial_w32.cpp:33-255 with the default constructor
    serial_w32.hpp:127.  Release build: in a debug build every open throws (C217_default_throws_refuted).
    One Serial object at a time, its event thread, the open handles of ports and the number of open event handles of the process.
    A port is opened with share mode 0, so it has one handle at most, which is called by the number of the port.
    Reading, writing and timeouts are in WSioModel.v; the settings are SCfgModel's subject.
    Simplified: open() is one step, so the event thread does not end between start() and is_open = true (212-215); the errors of
    CreateFileA are "not found" and all others. *)
From Coq Require Import ZArith List Bool Arith.
Import ListNotations.
Open Scope Z_scope.

(** The event thread, serial_w32.cpp:241-255: none, in WaitCommEvent, returned. *)
Inductive wthread := NoThread | Waiting | Ended.
(** The members file_descriptor, is_open, is_run and event_receiver, serial_w32.hpp:317-330; s_open: None while indeterminate; s_closing: a
    close() that waits in join. *)
Record ser := mkS { s_fd : option nat; s_open : option bool; s_run : bool; s_thread : wthread; s_closing : bool }.
(** The open handles of ports, the number of open event handles and the object. *)
Record wworld := mkWW { w_ports : list nat; w_handles : Z; w_obj : option ser }.
(** A process that starts. *)
Definition ww0 : wworld := mkWW [] 0 None.
(** The errors thrown, serial_w32.cpp:70, 75, 103-111, 159, 197-201; what a call does: return, throw, wait. *)
Inductive err := OpenErr | NotFoundErr | ConfigErr.
Inductive wreply := RDone | RThrow (e : err) | RWaits.
Inductive wresult := Goes (w : wworld) (r : wreply) | Cannot | Undef.
(** The answers of the system: both events made, the port exists, GetCommState, SetCommState, CreateThread. *)
Record answers := mkA { a_ev1 : bool; a_ev2 : bool; a_there : bool; a_get : bool; a_set : bool; a_thread : bool }.
(** The calls, and the steps of the event thread. *)
Inductive scall :=
| SNew | SNewOpen (port : nat) (a : answers) | SOpen (port : nat) (a : answers) | SClose | SDestroy | SStatus
| TEvent        (* WaitCommEvent returns: a byte arrived, or an error other than ERROR_OPERATION_ABORTED *)
| TAbort.       (* WaitCommEvent fails with ERROR_OPERATION_ABORTED *)

(** open(...) on a port that is not open, serial_w32.cpp:59-216. *)
Definition do_open (w : wworld) (o : ser) (port : nat) (a : answers) : wworld * wreply :=
  let put (ports : list nat) (h : Z) (o' : ser) := mkWW ports h (Some o') in
  if negb (a_ev1 a) then (put (w_ports w) (w_handles w) o, RThrow OpenErr)
  else if negb (a_ev2 a) then (put (w_ports w) (w_handles w + 1) o, RThrow OpenErr)
  else
    let h := w_handles w + 2 in
    let free := negb (existsb (Nat.eqb port) (w_ports w)) in
    if a_there a && free then
      let o1 := mkS (Some port) (s_open o) (s_run o) (s_thread o) false in
      if negb (a_get a && a_set a) then (put (port :: w_ports w) h o1, RThrow ConfigErr)
      else (put (port :: w_ports w) h (mkS (Some port) (Some true) true (if a_thread a then Waiting else NoThread) false), RDone)
    else (put (w_ports w) h (mkS None (s_open o) (s_run o) (s_thread o) false), RThrow (if a_there a then OpenErr else NotFoundErr)).
(** close() after join has returned, serial_w32.cpp:224-234. *)
Definition finish_close (w : wworld) (o : ser) : wworld :=
  mkWW (match s_fd o with Some h => remove Nat.eq_dec h (w_ports w) | None => w_ports w end) (w_handles w) (Some (mkS None (Some false) false NoThread false)).
(** close(), serial_w32.cpp:218-236: the world and whether it has returned. *)
Definition do_close (w : wworld) (o : ser) : option (wworld * bool) :=
  match s_open o with
  | None => None
  | Some false => Some (w, true)
  | Some true =>
    match s_thread o with
    | Waiting => Some (mkWW (w_ports w) (w_handles w) (Some (mkS (s_fd o) (s_open o) false Waiting true)), false)
    | _ => Some (finish_close w o, true)
    end
  end.
(** The end of event_proc, serial_w32.cpp:253-254. *)
Definition end_thread (w : wworld) (o : ser) : wworld :=
  let o1 := mkS None (Some false) (s_run o) Ended (s_closing o) in
  let w1 := mkWW (w_ports w) (w_handles w) (Some o1) in
  if s_closing o then finish_close w1 o1 else w1.
(** The constructors, open (52-57), close (218), the destructor (44-46) and open() (serial_w32.hpp:189); a turn of the loop of the thread,
    245-252.  open and the destructor close the port first; while that waits they have not returned, and go on when called again. *)
Definition s_step (w : wworld) (c : scall) : wresult :=
  match c, w_obj w with
  | SNew, None => Goes (mkWW (w_ports w) (w_handles w) (Some (mkS None (Some false) false NoThread false))) RDone
  | SNewOpen port a, None => Undef                          (* serial_w32.cpp:33-42: is_open is not initialised, and read by open() *)
  | SNew, Some _ | SNewOpen _ _, Some _ => Cannot
  | _, None => Cannot
  | TEvent, Some o => match s_thread o with Waiting => if s_run o then Goes w RDone else Goes (end_thread w o) RDone | _ => Cannot end
  | TAbort, Some o => match s_thread o with Waiting => Goes (end_thread w o) RDone | _ => Cannot end
  | c, Some o =>
    if s_closing o then Cannot
    else match c with
    | SStatus => match s_open o with None => Undef | Some _ => Goes w RDone end
    | _ =>
      match do_close w o with
      | None => Undef
      | Some (w1, false) => Goes w1 RWaits
      | Some (w1, true) =>
        match c with
        | SOpen port a => match w_obj w1 with Some o1 => let '(w2, r) := do_open w1 o1 port a in Goes w2 r | None => Undef end
        | SDestroy => Goes (mkWW (w_ports w1) (w_handles w1) None) RDone
        | _ => Goes w1 RDone
        end
      end
    end
  end.
(** A history. *)
Fixpoint s_run_all (w : wworld) (l : list scall) : wresult :=
  match l with [] => Goes w RDone | c :: tl => match s_step w c with Goes w1 _ => s_run_all w1 tl | x => x end end.
