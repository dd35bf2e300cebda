(** Model of the descriptor-holding devices of ecl_devices: socket client and server, serial port, output file.
    Files: /repo/ecl_devices/src/lib/{socket_client_pos,socket_server_pos,serial_pos,ofile_pos}.cpp and
    include/ecl/devices/{socket_client_pos,socket_server_pos,serial_pos,ofile_pos}.hpp.
    One process holds any number of such objects and other code that opens and closes files of its own.
    The operating system is a parameter: each event says how the system calls it makes turn out.
    Threads, signals and descriptor limits (other than as a failing call) are not modelled. *)
From Verif Require Import Base.
Open Scope Z_scope.

(** * Builds: ecl_throw and ecl_debug_throw, ecl_exceptions/include/ecl/exceptions/macros.hpp:45-63, 85-114. *)
Inductive build := NoExceptions | Release | Debug.
Definition throws (b : build) : bool := match b with NoExceptions => false | _ => true end.
Definition debug_throws (b : build) : bool := match b with Debug => true | _ => false end.

(** * The descriptor table of the process *)
(** Open descriptors with the object that obtained them (0: code outside the library). *)
Definition table := list (Z * Z).
Definition used (t : table) (fd : Z) : bool := existsb (fun q => fst q =? fd) t.
Definition owner (t : table) (fd : Z) : option Z :=
  match find (fun q => fst q =? fd) t with Some q => Some (snd q) | None => None end.
(** POSIX open/socket/accept return the lowest descriptor not in use. *)
Definition lowest (t : table) : Z :=
  match find (fun k => negb (used t k)) (map Z.of_nat (seq 0 (S (length t)))) with Some k => k | None => -1 end.

(** * Objects.  [None]: a member no constructor has initialised. *)
(** socket_client_pos.hpp:69 (default constructor), 193-198 (members). *)
Record client := mkClient { c_fd : option Z; c_open : bool }.
(** socket_server_pos.hpp:65, 213-220. *)
Record server := mkServer { s_fd : option Z; s_peer : option Z; s_open : bool }.
(** serial_pos.hpp:144, 386-393; [p_wait]: read_timeout_ms. *)
Record port := mkPort { p_fd : option Z; p_open : option bool; p_wait : option Z }.
(** ofile_pos.hpp:297-298; the stream's descriptor and whether the stream still exists (false after a failed
    fclose, which leaves [file] pointing to it). *)
Record ofile := mkFile { f_file : option (Z * bool) }.
Inductive obj := Client (c : client) | Server (s : server) | Port (s : port) | File (f : ofile).

(** The process: descriptor table, living objects, ids ever given out, and for every ::close made by an object
    the object and the owner of what was closed (None: nothing was open under that number). *)
Record proc := mkProc { tab : table; objs : list (Z * obj); ids : list Z; closes : list (Z * option Z) }.
Definition proc0 : proc := mkProc [] [] [] [].
Definition get (p : proc) (id : Z) : option obj :=
  match find (fun q => fst q =? id) (objs p) with Some q => Some (snd q) | None => None end.
Definition without (id : Z) (l : list (Z * obj)) : list (Z * obj) := filter (fun q => negb (fst q =? id)) l.
Definition put (id : Z) (o : obj) (p : proc) : proc := mkProc (tab p) ((id, o) :: without id (objs p)) (ids p) (closes p).
Definition gone (id : Z) (p : proc) : proc := mkProc (tab p) (without id (objs p)) (ids p) (closes p).
Definition sys_open (id : Z) (p : proc) : Z * proc :=
  let fd := lowest (tab p) in (fd, mkProc ((fd, id) :: tab p) (objs p) (ids p) (closes p)).
Definition sys_close (id fd : Z) (p : proc) : proc :=
  mkProc (filter (fun q => negb (fst q =? fd)) (tab p)) (objs p) (ids p) (closes p ++ [(id, owner (tab p) fd)]).

(** Result of a call: the process, the object and whether the call reported success. *)
Definition out (A : Type) := res (proc * A * bool).

(** * SocketClient *)
(** close(), socket_client_pos.cpp:59-62: closes whatever number socket_fd holds. *)
Definition client_close (id : Z) (p : proc) (c : client) : res (proc * client) :=
  match c_fd c with None => UB | Some fd => Ok (sys_close id fd p, mkClient (Some fd) false) end.
Inductive client_os := NoSocket | NoHost | NoConnect | Connected.
(** open(host,port), socket_client_pos.cpp:64-129.  Failure is an exception or [false]; the object is the same. *)
Definition client_open (os : client_os) (id : Z) (p : proc) (c : client) : out client :=
  pc <- (if c_open c then client_close id p c else Ok (p, c)) ;;
  let '(p1, c1) := pc in
  match os with
  | NoSocket => Ok (p1, mkClient (Some (-1)) (c_open c1), false)                                     (* 78-84 *)
  | NoHost => let '(fd, p2) := sys_open id p1 in Ok (sys_close id fd p2, mkClient (Some fd) (c_open c1), false)  (* 98-104 *)
  | NoConnect => let '(fd, p2) := sys_open id p1 in Ok (sys_close id fd p2, mkClient (Some fd) false, false)      (* 118-125 *)
  | Connected => let '(fd, p2) := sys_open id p1 in Ok (p2, mkClient (Some fd) true, true)           (* 126-128 *)
  end.
(** read finding 0 bytes or ECONNRESET, write finding EPIPE: socket_client_pos.cpp:141-166, 215-227. *)
Definition client_hangup (id : Z) (p : proc) (c : client) : res (proc * client) :=
  if c_open c then client_close id p c else Ok (p, c).

(** * SocketServer *)
(** close(), socket_server_pos.hpp:110; the accepted connection's descriptor is not touched. *)
Definition server_close (id : Z) (p : proc) (s : server) : res (proc * server) :=
  match s_fd s with None => UB | Some fd => Ok (sys_close id fd p, mkServer (Some fd) (s_peer s) false) end.
Inductive server_os := SNoSocket | SNoBind | SBound.
(** open(port), socket_server_pos.cpp:48-95; is_open becomes true when bind fails (87). *)
Definition server_open (os : server_os) (id : Z) (p : proc) (s : server) : out server :=
  ps <- (if s_open s then server_close id p s else Ok (p, s)) ;;
  let '(p1, s1) := ps in
  match os with
  | SNoSocket => Ok (p1, mkServer (Some (-1)) (s_peer s1) (s_open s1), false)                        (* 60-66 *)
  | SNoBind => let '(fd, p2) := sys_open id p1 in Ok (p2, mkServer (Some fd) (s_peer s1) true, false)  (* 85-91 *)
  | SBound => let '(fd, p2) := sys_open id p1 in Ok (p2, mkServer (Some fd) (s_peer s1) true, true)    (* 92-94 *)
  end.
(** listen(), socket_server_pos.cpp:97-119: accept on an open descriptor yields a new one. *)
Definition server_listen (ok : bool) (id : Z) (p : proc) (s : server) : out server :=
  match s_fd s with
  | None => UB
  | Some lfd =>
    if ok && used (tab p) lfd
    then let '(fd, p1) := sys_open id p in Ok (p1, mkServer (Some lfd) (Some fd) (s_open s), true)
    else Ok (p, mkServer (Some lfd) (Some (-1)) (s_open s), false)
  end.
(** read finding 0 bytes (checks open(), 127-140); write finding EPIPE (does not, 174-185). *)
Definition server_hangup (writing : bool) (id : Z) (p : proc) (s : server) : res (proc * server) :=
  if negb writing && negb (s_open s) then Ok (p, s)
  else match s_peer s with None => UB | Some _ => server_close id p s end.

(** * Serial *)
(** close(), serial_pos.cpp:279-287. *)
Definition port_close (id : Z) (p : proc) (s : port) : res (proc * port) :=
  match p_open s with
  | None => UB
  | Some false => Ok (p, s)
  | Some true => match p_fd s with None => UB
                 | Some fd => Ok (sys_close id fd p, mkPort (Some fd) (Some false) (p_wait s)) end
  end.
(** open(), serial_pos.cpp:289-297; [there]: the device file still exists. *)
Definition port_query (there : bool) (id : Z) (p : proc) (s : port) : res (proc * port * bool) :=
  match p_open s with
  | None => UB
  | Some false => Ok (p, s, false)
  | Some true => if there then Ok (p, s, true)
                 else ps <- port_close id p s ;; Ok (fst ps, snd ps, false)
  end.
Inductive port_os := BadStopBits | NoDevice | BadBaud | Locked | NoSpeed | PortUp.
(** open(name,...), serial_pos.cpp:90-277.  The settings written to the terminal (144, 162-272) are not modelled,
    except that read_timeout_ms is read (267). *)
Definition port_open (b : build) (os : port_os) (there : bool) (id : Z) (p : proc) (s : port) : out port :=
  match os with
  | BadStopBits => Ok (p, if throws b then s else mkPort (p_fd s) (Some false) (p_wait s), false)    (* 97-104 *)
  | _ =>
    q <- port_query there id p s ;;
    let '(p1, s1, isopen) := q in
    r <- (if isopen then port_close id p1 s1 else Ok (p1, s1)) ;;                                   (* 106-109 *)
    let '(p2, s2) := r in
    match os with
    | NoDevice => Ok (p2, mkPort (Some (-1)) (Some false) (p_wait s2), false)                       (* 114-121 *)
    | PortUp =>
      let '(fd, p3) := sys_open id p2 in
      match p_wait s2 with                                                                          (* 267-276 *)
      | None => UB
      | Some w => Ok (p3, mkPort (Some fd) (Some true) (Some w), true)
      end
    | _ =>                                                                                          (* 125-131, 153-160, 173-179 *)
      let '(fd, p3) := sys_open id p2 in Ok (p3, mkPort (Some fd) (Some false) (p_wait s2), false)
    end
  end.

(** * OFile *)
Inductive file_os := FNoOpen | FNoStream | FOpened.
(** open(name,mode), ofile_pos.cpp:63-97, mode New or Append; [file] is overwritten without closing it. *)
Definition file_open (os : file_os) (id : Z) (p : proc) (f : ofile) : out ofile :=
  match os with
  | FNoOpen => Ok (p, f, false)
  | FNoStream => let '(_, p1) := sys_open id p in Ok (p1, mkFile None, false)
  | FOpened => let '(fd, p1) := sys_open id p in Ok (p1, mkFile (Some (fd, true)), true)
  end.
(** close(), ofile_pos.cpp:99-111.  fclose releases the stream and its descriptor whether or not it reports
    an error; using the stream again is undefined. *)
Definition file_close (ok : bool) (id : Z) (p : proc) (f : ofile) : out ofile :=
  match f_file f with
  | None => Ok (p, f, true)
  | Some (fd, false) => UB
  | Some (fd, true) => Ok (sys_close id fd p, mkFile (if ok then None else Some (fd, false)), ok)
  end.

(** * Histories *)
(** How a new object's storage starts: zeroed (static objects) or indeterminate. *)
Inductive storage := Zeroed | Indeterminate.
Definition raw {A} (st : storage) (zero : A) : option A := match st with Zeroed => Some zero | Indeterminate => None end.
(** What the constructors set: socket_client_pos.hpp:69, socket_server_pos.hpp:65, serial_pos.hpp:144,
    ofile_pos.cpp:35-38; Serial's opening constructor (serial_pos.cpp:69-71) sets the timeout but not is_open. *)
Definition fresh_client (st : storage) : client := mkClient (raw st 0) false.
Definition fresh_server (st : storage) : server := mkServer (raw st 0) (raw st 0) false.
Definition fresh_port (st : storage) : port := mkPort (raw st 0) (Some false) (raw st 0).
Definition opening_port (st : storage) : port := mkPort (raw st 0) (raw st false) (Some 5000).
Definition fresh_file : ofile := mkFile None.

Inductive event :=
| NewClient (id : Z) (st : storage)                                   (* default constructors *)
| NewServer (id : Z) (st : storage)
| NewPort (id : Z) (st : storage)
| NewFile (id : Z)
| MakeClient (id : Z) (st : storage) (os : client_os)                 (* opening constructors *)
| MakeServer (id : Z) (st : storage) (os : server_os)
| MakePort (id : Z) (st : storage) (os : port_os)
| MakeFile (id : Z) (os : file_os)
| OpenClient (id : Z) (os : client_os)
| OpenServer (id : Z) (os : server_os)
| OpenPort (id : Z) (os : port_os) (there : bool)
| OpenFile (id : Z) (os : file_os)
| Listen (id : Z) (ok : bool)
| QueryPort (id : Z) (there : bool)                                   (* Serial::open() *)
| HangUp (id : Z) (writing : bool)
| Close (id : Z) (ok : bool)                                          (* close(); ok: fclose reports success *)
| Destroy (id : Z)
| OtherOpen                                                           (* code outside the library *)
| OtherClose (fd : Z).

(** An opening constructor that fails leaves no object, and runs no destructor, when failure is an exception. *)
Definition constructed {A} (b : build) (wrap : A -> obj) (id : Z) (m : out A) : res proc :=
  r <- m ;; let '(p1, o, ok) := r in
  Ok (if ok || negb (throws b) then put id (wrap o) p1 else p1).
Definition updated {A} (wrap : A -> obj) (id : Z) (m : out A) : res proc :=
  r <- m ;; let '(p1, o, _) := r in Ok (put id (wrap o) p1).
Definition updated2 {A} (wrap : A -> obj) (id : Z) (m : res (proc * A)) : res proc :=
  r <- m ;; let '(p1, o) := r in Ok (put id (wrap o) p1).
Definition created (id : Z) (p : proc) : proc := mkProc (tab p) (objs p) (id :: ids p) (closes p).
Definition is_new (id : Z) (p : proc) : bool := negb (id =? 0) && negb (existsb (Z.eqb id) (ids p)).
Definition destroyed {A} (id : Z) (m : res (proc * A)) : res proc := r <- m ;; Ok (gone id (fst r)).

(** One step.  Events that name no living object of the right class, or re-use an id, are not calls: no effect. *)
Definition step (b : build) (e : event) (p : proc) : res proc :=
  match e with
  | NewClient id st => Ok (if is_new id p then put id (Client (fresh_client st)) (created id p) else p)
  | NewServer id st => Ok (if is_new id p then put id (Server (fresh_server st)) (created id p) else p)
  | NewPort id st => Ok (if is_new id p then put id (Port (fresh_port st)) (created id p) else p)
  | NewFile id => Ok (if is_new id p then put id (File fresh_file) (created id p) else p)
  | MakeClient id st os => if is_new id p then constructed b Client id (client_open os id (created id p) (fresh_client st)) else Ok p
  | MakeServer id st os => if is_new id p then constructed b Server id (server_open os id (created id p) (fresh_server st)) else Ok p
  | MakePort id st os => if is_new id p then constructed b Port id (port_open b os true id (created id p) (opening_port st)) else Ok p
  | MakeFile id os => if is_new id p then constructed b File id (file_open os id (created id p) fresh_file) else Ok p
  | OpenClient id os => match get p id with Some (Client c) => updated Client id (client_open os id p c) | _ => Ok p end
  | OpenServer id os => match get p id with Some (Server s) => updated Server id (server_open os id p s) | _ => Ok p end
  | OpenPort id os there => match get p id with Some (Port s) => updated Port id (port_open b os there id p s) | _ => Ok p end
  | OpenFile id os => match get p id with Some (File f) => updated File id (file_open os id p f) | _ => Ok p end
  | Listen id ok => match get p id with Some (Server s) => updated Server id (server_listen ok id p s) | _ => Ok p end
  | QueryPort id there => match get p id with Some (Port s) => updated Port id (port_query there id p s) | _ => Ok p end
  | HangUp id writing =>
    match get p id with
    | Some (Client c) => updated2 Client id (client_hangup id p c)
    | Some (Server s) => updated2 Server id (server_hangup writing id p s)
    | _ => Ok p
    end
  | Close id ok =>
    match get p id with
    | Some (Client c) => updated2 Client id (client_close id p c)
    | Some (Server s) => updated2 Server id (server_close id p s)
    | Some (Port s) => updated2 Port id (port_close id p s)
    | Some (File f) => updated File id (file_close ok id p f)
    | None => Ok p
    end
  | Destroy id =>                   (* socket_client_pos.hpp:82, socket_server_pos.hpp:77, serial_pos.cpp:81-84, ofile_pos.cpp:51-60 *)
    match get p id with
    | Some (Client c) => destroyed id (client_close id p c)
    | Some (Server s) => destroyed id (server_close id p s)
    | Some (Port s) => destroyed id (port_close id p s)
    | Some (File f) => destroyed id (r <- file_close true id p f ;; Ok (fst r))
    | None => Ok p
    end
  | OtherOpen => Ok (snd (sys_open 0 p))
  | OtherClose fd => Ok (if match owner (tab p) fd with Some 0 => true | _ => false end then sys_close 0 fd p else p)
  end.
Fixpoint run (b : build) (es : list event) (p : proc) : res proc :=
  match es with [] => Ok p | e :: es' => p' <- step b e p ;; run b es' p' end.

(** What open() answers without touching anything (Serial: while the device file exists). *)
Definition reports_open (o : obj) : bool :=
  match o with
  | Client c => c_open c
  | Server s => s_open s
  | Port s => match p_open s with Some x => x | None => false end
  | File f => match f_file f with Some _ => true | None => false end
  end.

(** * The data path of a connected socket *)
(** The peer's bytes that arrived and are unread, and how the peer left, if it did. *)
Inductive leaving := Stays | Left | Reset.
Record conn := mkConn { pending : list Z; peer : leaving }.
(** What ::recv does.  With no data and a peer that stays it waits: the call does not return ([None]).
    Otherwise it hands over [k] bytes, 1 <= k <= min(n, pending) for n > 0. *)
Inductive recv_result := Bytes (l : list Z) | Failed (reset : bool).
Definition recv (n k : Z) (flt : bool) (c : conn) : option recv_result :=
  if flt then Some (Failed false)                           (* any other error *)
  else match pending c with
  | [] => match peer c with Stays => None | Left => Some (Bytes []) | Reset => Some (Failed true) end
  | l => let m := Z.max (Z.min 1 n) (Z.min k (Z.min n (Zlen l))) in Some (Bytes (firstn (Z.to_nat m) l))
  end.
Definition drop (n : Z) (c : conn) : conn := mkConn (skipn (Z.to_nat n) (pending c)) (peer c).
(** A pending connection error is reported once; afterwards the connection is at its end. *)
Definition reported (reset : bool) (c : conn) : conn := if reset then mkConn (pending c) Left else c.
(** A socket object as seen by read and write: is_open, and whether error_handler holds an error. *)
Record sock := mkSock { k_open : bool; k_err : bool }.
Inductive answer := Code (z : Z) | Data (l : list Z) | Raised | Waits.
Definition Problem : Z := -1.        (* socket_connection_status.hpp:33-35 *)
Definition Disconnected : Z := -2.
Definition HungUp : Z := -3.
(** SocketClient::read, socket_client_pos.cpp:139-174; for fewer than 2^31 bytes (recv's result is kept in an int). *)
Definition client_read (b : build) (n k : Z) (flt : bool) (s : sock) (c : conn) : sock * conn * answer :=
  if negb (k_open s) then (s, c, Code Disconnected)
  else match recv n k flt c with
  | None => (s, c, Waits)
  | Some (Bytes []) => (mkSock false (k_err s), c, Code HungUp)
  | Some (Bytes l) => (mkSock true false, drop (Zlen l) c, Data l)
  | Some (Failed true) => (mkSock false (k_err s), reported true c, Code HungUp)
  | Some (Failed false) => if debug_throws b then (s, c, Raised) else (mkSock true true, c, Code Problem)
  end.
(** SocketClient::peek, socket_client_pos.cpp:176-188. *)
Definition client_peek (b : build) (n k : Z) (flt : bool) (s : sock) (c : conn) : sock * conn * answer :=
  if negb (k_open s) then (s, c, Code Disconnected)
  else match recv n k flt c with
  | None => (s, c, Waits)
  | Some (Bytes l) => (mkSock true false, c, Data l)
  | Some (Failed r) => if debug_throws b then (s, reported r c, Raised) else (mkSock true true, reported r c, Code Problem)
  end.
(** What FIONREAD makes of an unsigned long holding [junk]: it stores an int in the low half (little endian);
    the result is converted to long. *)
Definition fionread (junk count : Z) : Z := wrap_s 64 (junk / two32 * two32 + u32 count).
(** SocketClient::remaining, socket_client_pos.cpp:190-202; [junk]: what the uninitialised local holds. *)
Definition client_remaining (b : build) (junk : Z) (flt : bool) (s : sock) (c : conn) : sock * answer :=
  if negb (k_open s) then (s, Code Disconnected)
  else if flt then (if debug_throws b then (s, Raised) else (mkSock true false, Code (wrap_s 64 junk)))
  else (mkSock true false, Code (fionread junk (Zlen (pending c)))).
(** ::send: bytes taken (1..n for n > 0), the peer gone (EPIPE), or another error. *)
Inductive send_result := Sent (k : Z) | Broken | SendFails.
(** SocketClient::write, socket_client_pos.cpp:213-236: error_handler keeps its value on success. *)
Definition client_write (b : build) (r : send_result) (s : sock) : sock * answer :=
  if negb (k_open s) then (s, Code Disconnected)
  else match r with
  | Sent k => (s, Code k)
  | Broken => (mkSock false (k_err s), Code HungUp)
  | SendFails => if debug_throws b then (s, Raised) else (mkSock true true, Code Problem)
  end.
(** SocketServer::read, peek, remaining, write, socket_server_pos.cpp:125-195, once listen() has accepted a client. *)
Definition server_read (b : build) (n k : Z) (flt : bool) (s : sock) (c : conn) : sock * conn * answer :=
  if negb (k_open s) then (s, c, Code Disconnected)
  else match recv n k flt c with
  | None => (s, c, Waits)
  | Some (Bytes []) => (mkSock false (k_err s), c, Code HungUp)
  | Some (Bytes l) => (mkSock true false, drop (Zlen l) c, Data l)
  | Some (Failed r) => if debug_throws b then (s, reported r c, Raised) else (mkSock true true, reported r c, Code Problem)
  end.
Definition server_peek (b : build) (n k : Z) (flt : bool) (s : sock) (c : conn) : sock * conn * answer :=
  match recv n k flt c with
  | None => (s, c, Waits)
  | Some (Bytes l) => (mkSock (k_open s) false, c, Data l)
  | Some (Failed r) => if debug_throws b then (s, reported r c, Raised) else (mkSock (k_open s) true, reported r c, Code Problem)
  end.
Definition server_remaining (b : build) (junk : Z) (flt : bool) (s : sock) (c : conn) : sock * answer :=
  if flt then (if debug_throws b then (s, Raised) else (mkSock (k_open s) true, Code Problem))
  else (mkSock (k_open s) false, Code (fionread junk (Zlen (pending c)))).
Definition server_write (b : build) (r : send_result) (s : sock) : sock * answer :=
  match r with
  | Sent k => (mkSock (k_open s) false, Code k)
  | Broken => (mkSock false (k_err s), Code HungUp)
  | SendFails => if debug_throws b then (s, Raised) else (mkSock (k_open s) true, Code Problem)
  end.

(** A connection's life: bytes arrive, the peer leaves, the user calls. *)
Inductive io :=
| Arrive (l : list Z) | Leave (how : leaving)
| Read (n k : Z) (flt : bool) | Peek (n k : Z) (flt : bool) | Remaining (junk : Z) (flt : bool) | Write (r : send_result) | Shut.
Definition life (server : bool) (b : build) (i : io) (s : sock) (c : conn) : sock * conn * option answer :=
  match i with
  | Arrive l => (s, match peer c with Stays => mkConn (pending c ++ l) Stays | _ => c end, None)
  | Leave how => (s, match peer c with Stays => mkConn (pending c) how | _ => c end, None)
  | Read n k flt => let '(s', c', a) := (if server then server_read else client_read) b n k flt s c in (s', c', Some a)
  | Peek n k flt => let '(s', c', a) := (if server then server_peek else client_peek) b n k flt s c in (s', c', Some a)
  | Remaining j flt => let '(s', a) := (if server then server_remaining else client_remaining) b j flt s c in (s', c, Some a)
  | Write r => let '(s', a) := (if server then server_write else client_write) b r s in (s', c, Some a)
  | Shut => (mkSock false (k_err s), c, None)               (* close() *)
  end.
(** Run a life; the trace pairs each event with its answer. *)
Fixpoint lives (server : bool) (b : build) (is : list io) (s : sock) (c : conn) : sock * conn * list (io * option answer) :=
  match is with
  | [] => (s, c, [])
  | i :: is' => let '(s1, c1, a) := life server b i s c in
                let '(s2, c2, tr) := lives server b is' s1 c1 in (s2, c2, (i, a) :: tr)
  end.
