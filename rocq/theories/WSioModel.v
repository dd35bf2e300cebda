(** Reading and writing serial ports on Windows: ecl_devices/src/lib/serial_w32.cpp:261-385.  An open port holds the bytes that have arrived and
    those that have been accepted for sending.  The system's answers are inputs.  Simplified: a byte string is one list, long is 32 bits wide and
    counts fit; an operation that is left pending when read returns takes its bytes from the port before anything else does. *)
From Verif Require Import Base.

(** What has arrived, what was accepted for sending, and how many bytes an abandoned read is still going to take. *)
Record port := mkPort { po_in : list Z; po_out : list Z; po_abandoned : nat }.

(** ReadFile of n bytes: completed with at most k bytes; pending, and then completed, failed, or the wait itself failed; refused. *)
Inductive rans := RNow (k : nat) | RLater (k : nat) | RLaterFails | RWaitFails (k : nat) | RRefused.
(** Taking k of the bytes that have arrived, at most n. *)
Definition take (p : port) (n k : nat) : port * list Z :=
  let m := Nat.min n k in (mkPort (skipn m (po_in p)) (po_out p) (po_abandoned p), firstn m (po_in p)).
(** An abandoned operation takes its bytes; they go to the buffer of a call that has returned. *)
Definition settle (p : port) : port := mkPort (skipn (po_abandoned p) (po_in p)) (po_out p) 0.
(** read(s, n), serial_w32.cpp:337-385: the number returned and what is in the first bytes of s.  [valid]: file_descriptor is not
    INVALID_HANDLE_VALUE, 350.  There is no exception anywhere. *)
Definition w_read (valid : bool) (p : port) (n : nat) (a : rans) : port * (Z * list Z) :=
  if negb valid then (p, (0, []))
  else
    let p0 := settle p in
    match a with
    | RNow k => let '(p1, b) := take p0 n k in (p1, (Zlen b, b))                            (* 384 *)
    | RLater k => let '(p1, b) := take p0 n k in (p1, (Zlen b, b))                          (* 371-372 *)
    | RLaterFails => (p0, (0, []))                                                          (* 367-369 *)
    | RWaitFails k => (mkPort (po_in p0) (po_out p0) (Nat.min n k), (0, []))                (* 375-379: the operation goes on *)
    | RRefused => (p0, (0, []))                                                             (* 357-361 *)
    end.
(** read(c), serial_w32.cpp:333-335. *)
Definition w_read_char (valid : bool) (p : port) (a : rans) : port * (Z * list Z) := w_read valid p 1 a.
(** remaining(), serial_w32.cpp:323-331; [ok]: ClearCommError succeeded. *)
Definition w_remaining (p : port) (ok : bool) : Z := if ok then Zlen (po_in p) else -1.
(** Bytes arrive. *)
Definition arrive (p : port) (b : list Z) : port := mkPort (po_in p ++ b) (po_out p) (po_abandoned p).

(** WriteFile of s: completed; pending, and then completed with k bytes, or failed having moved none; refused. *)
Inductive wans := WNow (k : nat) | WLater (k : nat) | WLaterFails | WRefused.
Definition send (p : port) (s : list Z) (k : nat) : port * Z :=
  let b := firstn k s in (mkPort (po_in p) (po_out p ++ b) (po_abandoned p), Zlen b).
(** write(s, n), serial_w32.cpp:265-288.  WriteFile sets written to 0 before it starts. *)
Definition w_write (debug : bool) (p : port) (s : list Z) (a : wans) : port * res Z :=
  let '(p1, written) := match a with WNow k | WLater k => send p s k | WLaterFails | WRefused => (p, 0) end in
  (p1, _ <- assert_throw debug (negb (written =? 0)) WriteError ;; Ok written).

(** The time-outs of a port: ReadIntervalTimeout, ReadTotalTimeoutMultiplier and ReadTotalTimeoutConstant. *)
Record comm := mkComm { c_interval : Z; c_multiplier : Z; c_constant : Z }.
Definition maxdword : Z := 2 ^ 32 - 1.
(** block(timeout), serial_w32.cpp:294-306, and unblock(), 308-318. *)
Definition w_block (debug : bool) (timeout : Z) : res comm :=
  _ <- assert_throw debug (0 <=? timeout) InvalidInputError ;; Ok (mkComm maxdword maxdword (u32 timeout)).
Definition w_unblock : comm := mkComm maxdword 0 0.
(** How long ReadFile waits for a first byte, in milliseconds, and [None]: until one comes.  The documentation of COMMTIMEOUTS: interval MAXDWORD
    and multiplier and constant 0: return at once with what is there; interval and multiplier MAXDWORD and a constant between 0 and MAXDWORD: at
    once if something is there, else wait for a byte for as long as the constant says.  Other combinations are not described there. *)
Inductive waits := AtOnce | FirstByte (ms : Z) | Undescribed.
Definition read_waits (c : comm) : waits :=
  if (c_interval c =? maxdword) && (c_multiplier c =? 0) && (c_constant c =? 0) then AtOnce
  else if (c_interval c =? maxdword) && (c_multiplier c =? maxdword) && (0 <? c_constant c) && (c_constant c <? maxdword) then FirstByte (c_constant c)
  else Undescribed.
(** The calls on an open port. *)
Inductive pcall := PRead (n : nat) (a : rans) | PArrive (b : list Z) | PWrite (s : list Z) (a : wans) | PRemaining (ok : bool).
Definition p_step (debug : bool) (p : port) (c : pcall) : port * list Z :=
  match c with
  | PRead n a => let '(p1, (_, b)) := w_read true p n a in (p1, b)
  | PArrive b => (arrive p b, [])
  | PWrite s a => (fst (w_write debug p s a), [])
  | PRemaining _ => (p, [])
  end.
Fixpoint p_run (debug : bool) (p : port) (l : list pcall) : port * list Z :=
  match l with
  | [] => (p, [])
  | c :: tl => let '(p1, b) := p_step debug p c in let '(p2, b2) := p_run debug p1 tl in (p2, b ++ b2)
  end.
