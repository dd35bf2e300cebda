(** The command line programs of ecl_core_apps/src/utils: yaw2quaternion.cpp:41-43, quaternion2yaw.cpp:49-57, and the loops of serial.cpp, hex.cpp,
    socket_client.cpp and socket_server.cpp that move bytes between the terminal and a device.  Doubles are real numbers, as in RBase.v.  Parsing
    of the command line is modelled in CmdModel.v and the devices in DevModel.v, SockModel.v and SCfgModel.v. *)
From Verif Require Import RBase PolyModel ConvModel.

(** * Yaw and quaternions *)

Record quat := mkQ { qx : R; qy : R; qz : R; qw : R }.
(** yaw2quaternion.cpp:41-42: Eigen's quaternion of the rotation by yaw about the unit vector z. *)
Definition y2q (yaw : R) : quat := mkQ (sin (yaw / 2) * 0) (sin (yaw / 2) * 0) (sin (yaw / 2) * 1) (cos (yaw / 2)).
(** quaternion2yaw.cpp:49-57: whether the complaint about non-yaw components is printed, and the radians and degrees that are printed. *)
Record yaw_out := mkYO { yo_warned : bool; yo_rads : R; yo_degrees : R }.
Definition nonzero (x : R) : bool := if Req_EM_T x 0 then false else true.
Definition q2y (q : quat) : fres yaw_out :=
  let warned := nonzero (qx q) && nonzero (qy q) in
  a <-- facos (qw q) ;;
  let rads := 2 * a * IZR (sign (qz q)) in
  d <-- fdiv (rads * 360) (2 * PI) ;;
  FOk (mkYO warned rads d).

(** * From the terminal to a device *)
Open Scope Z_scope.

(** fgets(buffer, n, stdin): at most n - 1 characters, up to and including a newline; [None] (NULL) at the end of the input. *)
Fixpoint fgets_loop (room : nat) (input : list Z) : list Z * list Z :=
  match room, input with
  | O, _ | _, [] => ([], input)
  | S k, c :: tl => if c =? 10 then ([c], tl) else let '(a, b) := fgets_loop k tl in (c :: a, b)
  end.
Definition fgets (n : nat) (input : list Z) : option (list Z * list Z) :=
  match input with [] => None | _ => Some (fgets_loop (n - 1) input) end.
(** while ( *s_ptr != '\0') ++s_ptr : what lies before the first null of the buffer, serial.cpp:94-95, socket_client.cpp:138-139, socket_server.cpp:142-143. *)
Fixpoint before_null (s : list Z) : list Z := match s with [] => [] | c :: tl => if c =? 0 then [] else c :: before_null tl end.
(** The loop of the writers, serial.cpp:87-102, socket_client.cpp:132-148, socket_server.cpp:136-152: the byte strings handed to write, in order.
    The calls of sleep and the time stamps are left out; [None]: the fuel ran out. *)
Fixpoint writer (fuel : nat) (input : list Z) : option (list (list Z)) :=
  match fuel with
  | O => None
  | S k =>
    match fgets 80 input with
    | None => Some []
    | Some (line, rest) => match writer k rest with Some ws => Some (before_null line :: ws) | None => None end
    end
  end.

(** The writer of hex.cpp, 86-114.  [early]: how many lines are read before the constructor of Writer reaches the member toByteArray, which is
    declared after the thread (hex.cpp:83-84) and so constructed after the thread was started. *)
Inductive hexout := HSent (ws : list (list Z)) | HTerminated (ws : list (list Z)) | HUndefined (ws : list (list Z)).
Definition hcons (w : list Z) (o : hexout) : hexout :=
  match o with HSent ws => HSent (w :: ws) | HTerminated ws => HTerminated (w :: ws) | HUndefined ws => HUndefined (w :: ws) end.
Fixpoint hex_writer (fuel : nat) (debug : bool) (early : nat) (byte0 : Z) (input : list Z) : option hexout :=
  match fuel with
  | O => None
  | S k =>
    match fgets 80 input with
    | None => Some (HSent [])
    | Some (line, rest) =>
      match early with
      | S _ => Some (HUndefined [])                              (* the converter is used before it exists *)
      | O =>
        match hex_parse debug byte0 (before_null line) with
        | Ok ([], _) => Some (HUndefined [])                     (* &hex_values[0], hex.cpp:107, of an empty vector *)
        | Ok (bytes, _) => match hex_writer k debug O byte0 rest with Some o => Some (hcons bytes o) | None => None end
        | Throw _ => Some (HTerminated [])                       (* nobody catches it in the thread: std::terminate *)
        | UB => Some (HUndefined [])
        end
      end
    end
  end.

(** * From a device to the terminal *)

(** What the readers print.  A stamp carries the time it shows. *)
Inductive shown := Stamp (time : Z) | Text (c : Z) | Hexed (c : Z) | HungUp.
(** What socket.read(c) gives: a character at some time, nothing, an error, or the end of the connection. *)
Inductive arrival := Got (time c : Z) | Nothing | Failed | Hung.
(** Reader::loop, socket_client.cpp:78-111 and socket_server.cpp:78-111, which end when the other side hangs up: the server by exit, the client
    by leaving the loop.  [new_line] and [stamp] are the members. *)
Fixpoint reader (timestamps hex new_line : bool) (stamp : Z) (l : list arrival) : list shown :=
  match l with
  | [] => []
  | Got t c :: tl =>
    let stamp1 := if timestamps && new_line then t else stamp in
    let out := if hex then (if timestamps then [Stamp stamp1] else []) ++ [Hexed c]
               else (if timestamps && new_line then [Stamp stamp1] else []) ++ [Text c] in
    let nl := if timestamps then (if new_line then false else if c =? 10 then true else new_line) else new_line in
    out ++ reader timestamps hex nl stamp1 tl
  | Hung :: _ => [HungUp]
  | _ :: tl => reader timestamps hex new_line stamp tl
  end.
(** The reader of serial.cpp, 127-151, and of hex.cpp, 135-151: the result of read, a long, is stored in an unsigned long; as many elements of
    s[255] are printed. *)
Definition serial_shown (r : Z) (s : list Z) : res (list Z) :=
  let ch_read := u64 r in
  if ch_read =? 0 then Ok [] else if ch_read <=? 255 then Ok (firstn (Z.to_nat ch_read) s) else UB.
