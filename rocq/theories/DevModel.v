(** Model of ecl_devices: buffered output (console, shared file), the string device, the shared file
    registry, output files and serial timeouts.
    Files: /repo/ecl_devices/src/lib/{console,shared_file,string,ofile_pos,serial_pos}.cpp,
    src/lib/detail/character_buffer.cpp, include/ecl/devices/detail/character_buffer.hpp. *)
From Verif Require Import Base.
Open Scope Z_scope.

(** * Character buffers *)
(** CharBuffer / CharStringBuffer, character_buffer.hpp:39-66, 79-108.  [cap] is buffer_size (4096 or 4095).
    The valid part of [contents] is kept as a list; its length is fill_point_marker.  The array has
    [room] cells (cap, or cap+1 with the terminator): stores beyond are UB. *)
Record kind := mkKind { cap : Z; room : Z }.
Definition file_kind : kind := mkKind 4096 4096.      (* CharBuffer, character_buffer.hpp:44, 65 *)
Definition console_kind : kind := mkKind 4095 4096.   (* CharStringBuffer, character_buffer.hpp:84, 107 *)
Definition full (k : kind) (b : list Z) : bool := Zlen b =? cap k.          (* character_buffer.cpp:26-32, 68-74 *)
Definition remaining (k : kind) (b : list Z) : Z := u32 (cap k - Zlen b).    (* character_buffer.hpp:52, 95 *)
(** memcpy of [s] at the fill point. *)
Definition put (k : kind) (b s : list Z) : res (list Z) :=
  if Zlen b + Zlen s <=? room k then Ok (b ++ s) else UB.
(** append(const char&), character_buffer.cpp:34-43, 76-85. *)
Definition append1 (k : kind) (b : list Z) (c : Z) : res (list Z * Z) :=
  if full k b then Ok (b, 0) else b' <- put k b [c] ;; Ok (b', 1).
(** append(const char*,n), character_buffer.cpp:45-57, 87-99; [s] is the n bytes offered. *)
Definition append (k : kind) (b s : list Z) : res (list Z * Z) :=
  if Zlen s <=? remaining k b then b' <- put k b s ;; Ok (b', Zlen s)
  else let m := remaining k b in b' <- put k b (firstn (Z.to_nat m) s) ;; Ok (b', m).

(** * Console output *)
(** A device: unsent bytes and what was handed to the operating system. *)
Record sink := mkSink { buf : list Z; out : list Z }.
(** What fputs sends of a C string. *)
Fixpoint until_nul (l : list Z) : list Z :=
  match l with [] => [] | c :: l' => if c =? 0 then [] else c :: until_nul l' end.
(** OConsole::flush, EConsole::flush, console.cpp:49-54, 81-86 (fflush succeeds): c_str() stores the
    terminator at the fill point (character_buffer.cpp:105-108). *)
Definition con_flush (s : sink) : res sink :=
  if Zlen (buf s) <? room console_kind then Ok (mkSink [] (out s ++ until_nul (buf s))) else UB.
(** write(char), console.cpp:28-35, 60-67. *)
Definition con_write1 (s : sink) (c : Z) : res (sink * Z) :=
  r <- append1 console_kind (buf s) c ;;
  let s1 := mkSink (fst r) (out s) in
  s2 <- (if full console_kind (fst r) then con_flush s1 else Ok s1) ;;
  Ok (s2, snd r).
(** The loop of write(char*,n), console.cpp:37-47, 69-79. [data]: bytes from s+no_written on.  For n < 2^32 only:
    no_written is an unsigned int and would wrap before reaching a larger n. *)
Fixpoint con_loop (fuel : nat) (s : sink) (data : list Z) : res sink :=
  match data with
  | [] => Ok s
  | _ =>
    match fuel with
    | O => Throw UnknownError
    | S f =>
      r <- append console_kind (buf s) data ;;
      let s1 := mkSink (fst r) (out s) in
      s2 <- (if full console_kind (fst r) then con_flush s1 else Ok s1) ;;
      con_loop f s2 (skipn (Z.to_nat (snd r)) data)
    end
  end.
Definition con_write (s : sink) (data : list Z) : res sink := con_loop (length data) s data.

(** * Shared file output *)
(** SharedFile::flush, shared_file.cpp:200-216, over OFile::write(char*,n), ofile_pos.cpp:134-150.
    [os]: whether fwrite would succeed on a non-empty block; fwrite of an empty block returns 0 items.
    The buffer is cleared either way, except that in debug builds the failure throws before line 208. *)
Definition sf_flush (debug os : bool) (s : sink) : res (sink * bool) :=
  let ok := os && negb (Zlen (buf s) =? 0) in
  if ok then Ok (mkSink [] (out s ++ buf s), true)
  else if debug then Throw WriteError else Ok (mkSink [] (out s), false).
(** write(char), shared_file.cpp:177-185. *)
Definition sf_write1 (debug os : bool) (s : sink) (c : Z) : res (sink * Z) :=
  r <- append1 file_kind (buf s) c ;;
  let s1 := mkSink (fst r) (out s) in
  if full file_kind (fst r) then
    q <- sf_flush debug os s1 ;; Ok (fst q, if snd q then snd r else -1)
  else Ok (s1, snd r).
(** write(char*,n), shared_file.cpp:187-198; n < 2^32 as for the console. *)
Fixpoint sf_loop (fuel : nat) (debug os : bool) (s : sink) (data : list Z) (n : Z) : res (sink * Z) :=
  match data with
  | [] => Ok (s, n)
  | _ =>
    match fuel with
    | O => Throw UnknownError
    | S f =>
      r <- append file_kind (buf s) data ;;
      let s1 := mkSink (fst r) (out s) in
      let rest := skipn (Z.to_nat (snd r)) data in
      if full file_kind (fst r) then
        q <- sf_flush debug os s1 ;;
        if snd q then sf_loop f debug os (fst q) rest n else Ok (fst q, -1)
      else sf_loop f debug os s1 rest n
    end
  end.
Definition sf_write (debug os : bool) (s : sink) (data : list Z) : res (sink * Z) :=
  sf_loop (length data) debug os s data (Zlen data).
(** ~SharedFile, shared_file.cpp:145-157, and ~OConsole, console.hpp:49: the buffer is not flushed.
    Result: everything that ever reached the operating system. *)
Definition destroy (s : sink) : list Z := out s.

(** * Output files *)
Inductive wmode := New | Append.
(** An open file: content on disk, write position (None: append mode). *)
Record ofile := mkOfile { fcontent : list Z; fpos : option Z }.
(** OFile::open, ofile_pos.cpp:65-97: O_WRONLY|O_CREAT without O_TRUNC for New; "w" given to fdopen does
    not truncate.  [old]: content of the file before (empty if it did not exist). *)
Definition of_open (m : wmode) (old : list Z) : ofile :=
  match m with New => mkOfile old (Some 0) | Append => mkOfile old None end.
(** OFile::write, ofile_pos.cpp:116-150 (fwrite succeeds; stdio buffering is transparent after close). *)
Definition of_write (f : ofile) (s : list Z) : ofile :=
  match fpos f with
  | None => mkOfile (fcontent f ++ s) None
  | Some p => mkOfile (firstn (Z.to_nat p) (fcontent f) ++ s ++ skipn (Z.to_nat (p + Zlen s)) (fcontent f)) (Some (p + Zlen s))
  end.
(** IConsole::read(char&), console.cpp:92-104: the int returned by fgetc (-1 at the end, else 0..255) is
    narrowed to char before the comparison with EOF. Result: number of bytes and the byte. *)
Definition icon_read (debug : bool) (ch : Z) : res (Z * Z) :=
  let c := wrap_s 8 ch in
  if c =? -1 then (if debug then Throw ReadError else Ok (0, c)) else Ok (1, c).

(** * The string device, string.cpp *)
(** [mem]: the allocation (uninitialised cells hold -1); positions are offsets from [buffer]. *)
Record strdev := mkStr { smem : list Z; slen : Z; wpos : Z; rpos : Z }.
Definition sstore (m : list Z) (p c : Z) : res (list Z) :=
  if (0 <=? p) && (p <? Zlen m) then Ok (zset m p c) else UB.
Fixpoint sstore_all (m : list Z) (p : Z) (s : list Z) : res (list Z) :=
  match s with [] => Ok m | c :: s' => m' <- sstore m p c ;; sstore_all m' (p + 1) s' end.
Definition alloc (n : Z) : list Z := repeat (-1) (Z.to_nat n).
(** [n] bytes from position p; UB outside the allocation. *)
Definition sload (m : list Z) (p n : Z) : res (list Z) :=
  if (0 <=? p) && (0 <=? n) && (p + n <=? Zlen m) then Ok (firstn (Z.to_nat n) (skipn (Z.to_nat p) m)) else UB.
(** String(const char* ), string.cpp:27-34; [s]: the characters before the terminator. *)
Definition str_new (s : list Z) : res strdev :=
  let n := Zlen s + 1 in
  m <- sstore_all (alloc n) 0 s ;; Ok (mkStr m n (n - 1) 0).
(** grow, string.cpp:48-58: buffer_length is not updated. *)
Definition str_grow (d : strdev) (n : Z) : res strdev :=
  old <- sload (smem d) 0 (wpos d) ;;
  m <- sstore_all (alloc (wpos d + n + 1)) 0 old ;;
  Ok (mkStr m (slen d) (wpos d) (rpos d)).
(** c_str, string.cpp:38-41. *)
Definition str_cstr (d : strdev) : res strdev :=
  m <- sstore (smem d) (wpos d) 0 ;; Ok (mkStr m (slen d) (wpos d) (rpos d)).
(** str, string.cpp:42-46. *)
Definition str_str (d : strdev) : res (list Z) := sload (smem d) 0 (wpos d).
Definition str_remaining (d : strdev) : Z := wpos d - rpos d.   (* 99-102 *)
(** read(char&), string.cpp:63-71. *)
Definition str_read1 (d : strdev) : res (strdev * list Z) :=
  if str_remaining d =? 0 then Ok (d, [])
  else s <- sload (smem d) (rpos d) 1 ;; Ok (mkStr (smem d) (slen d) (wpos d) (rpos d + 1), s).
(** read(char*,n), string.cpp:78-93. *)
Definition str_read (d : strdev) (n : Z) : res (strdev * list Z) :=
  let rem := str_remaining d in
  let k := if rem >? n then n else rem in
  s <- sload (smem d) (rpos d) k ;; Ok (mkStr (smem d) (slen d) (wpos d) (rpos d + k), s).
(** clear, string.cpp:108-115. *)
Definition str_clear (d : strdev) : strdev := mkStr (alloc 1) 0 0 0.
(** write(char), string.cpp:125-134; grow() defaults to 256. *)
Definition str_write1 (d : strdev) (c : Z) : res strdev :=
  d1 <- (if wpos d =? slen d - 1 then str_grow d 256 else Ok d) ;;
  m <- sstore (smem d1) (wpos d1) c ;;
  Ok (mkStr m (slen d1) (wpos d1 + 1) (rpos d1)).
(** write(char*,n), string.cpp:141-150. *)
Definition str_write (d : strdev) (s : list Z) : res strdev :=
  d1 <- (if wpos d >? slen d - 1 - Zlen s then str_grow d (Zlen s + 256) else Ok d) ;;
  m <- sstore_all (smem d1) (wpos d1) s ;;
  Ok (mkStr m (slen d1) (wpos d1 + Zlen s) (rpos d1)).

(** * Shared file registry, shared_file.cpp *)
(** Shared instances live on a heap; a freed one must not be used again. *)
Record inst := mkInst { iname : Z; icount : Z; ierr : bool; ilive : bool }.
Record reg := mkReg {
  heap : list inst;              (* instances ever created *)
  opened : list (Z * Z);         (* SharedFileManager::opened_files: name -> instance *)
  handles : list (Z * Z);        (* SharedFile object -> instance *)
  locked : bool;                 (* SharedFileManager::mutex held by nobody who will release it *)
  log : list (bool * Z) }.       (* (true,name): file opened; (false,name): file closed; newest last *)
Definition reg0 : reg := mkReg [] [] [] false [].
Definition lookup (k : Z) (l : list (Z * Z)) : option Z :=
  match find (fun p => fst p =? k) l with Some p => Some (snd p) | None => None end.
Definition remove (k : Z) (l : list (Z * Z)) : list (Z * Z) := filter (fun p => negb (fst p =? k)) l.
(** Outcome of an operation: finished (with or without an exception), blocked forever on the mutex, UB. *)
Inductive outcome := Fine (s : reg) | Raised (s : reg) | Blocked | Undefined.

(** SharedFile::open(name), shared_file.cpp:159-175, through RegisterSharedFile (73-98); the object must not
    be attached yet.  [os]: whether the operating system lets a new file be opened. *)
Definition reg_open (os : bool) (h name : Z) (s : reg) : outcome :=
  if locked s then Blocked
  else match lookup name (opened s) with
  | Some i =>
    match zget (heap s) i with
    | Some x => if ilive x
                then Fine (mkReg (zset (heap s) i (mkInst (iname x) (u32 (icount x + 1)) false (ilive x)))
                                 (opened s) ((h, i) :: handles s) false (log s))
                else Undefined
    | None => Undefined
    end
  | None =>
    let i := Zlen (heap s) in
    if os then Fine (mkReg (heap s ++ [mkInst name 1 false true]) ((name, i) :: opened s) ((h, i) :: handles s)
                           false (log s ++ [(true, name)]))
    else (* the exception leaves RegisterSharedFile with the mutex held; open() attaches a private instance *)
      Raised (mkReg (heap s ++ [mkInst (-1) 0 true true]) (opened s) ((h, i) :: handles s) true (log s))
  end.
(** SharedFile::flush, shared_file.cpp:200-216, release build: records the file's error in the shared instance. *)
Definition reg_flush (ok : bool) (h : Z) (s : reg) : outcome :=
  match lookup h (handles s) with
  | Some i =>
    match zget (heap s) i with
    | Some x => if ilive x
                then Fine (mkReg (zset (heap s) i (mkInst (iname x) (icount x) (negb ok) true)) (opened s) (handles s) (locked s) (log s))
                else Undefined
    | None => Undefined
    end
  | None => Undefined
  end.
(** ~SharedFile, shared_file.cpp:145-157, through DeRegisterSharedFile (104-121). *)
Definition reg_close (h : Z) (s : reg) : outcome :=
  match lookup h (handles s) with
  | Some i =>
    match zget (heap s) i with
    | Some x =>
      if negb (ilive x) then Undefined
      else if ierr x then  (* line 150: deleted without deregistering; the OFile destructor closes the file *)
        Fine (mkReg (zset (heap s) i (mkInst (iname x) (icount x) true false)) (opened s) (remove h (handles s)) (locked s)
                    (if iname x =? -1 then log s else log s ++ [(false, iname x)]))
      else if locked s then Blocked
      else match lookup (iname x) (opened s) with
      | Some j =>
        match zget (heap s) j with
        | Some y =>
          if negb (ilive y) then Undefined
          else if icount y =? 1
          then Fine (mkReg (zset (heap s) j (mkInst (iname y) (icount y) (ierr y) false)) (remove (iname x) (opened s))
                           (remove h (handles s)) false (log s ++ [(false, iname y)]))
          else Fine (mkReg (zset (heap s) j (mkInst (iname y) (u32 (icount y - 1)) (ierr y) true)) (opened s)
                           (remove h (handles s)) false (log s))
        | None => Undefined
        end
      | None => (* exception swallowed by the destructor, mutex still held *)
        Fine (mkReg (heap s) (opened s) (remove h (handles s)) true (log s))
      end
    | None => Undefined
    end
  | None => Undefined
  end.

(** What SharedFile::count() reports (shared_file.hpp:178). *)
Definition reg_count (s : reg) (h : Z) : option Z :=
  match lookup h (handles s) with Some i => match zget (heap s) i with Some x => if ilive x then Some (icount x) else None | None => None end | None => None end.

(** * Serial timeouts, serial_pos.cpp:303-363 *)
Record serial := mkSer { vtime : Z; snooze_ms : Z; loops : Z; timeout_ms : Z }.
(** [div(timeout, q)] then rounding up, 315-323 and 328-336. *)
Definition ceil_div (t q : Z) : Z := if Z.rem t q =? 0 then Z.quot t q else Z.quot t q + 1.
Definition unblock (s : serial) : serial := mkSer 0 (snooze_ms s) (loops s) (-1).      (* 357-363 *)
Definition block (t : Z) (s : serial) : serial :=
  if t <? 100 then
    let '(p, n) := if t <? 5 then (1, t) else if t <? 20 then (2, ceil_div t 2) else (5, ceil_div t 5) in
    let s' := unblock (mkSer (vtime s) p n (timeout_ms s)) in
    mkSer (vtime s') (snooze_ms s') (loops s') t
  else mkSer ((t / 100) mod 256) (snooze_ms s) (loops s) (wrap_s 64 t).
(** How long Serial::read waits for data that never arrives, in ms (serial_pos.hpp:442-517): the polling loop
    for timeouts below 100ms, otherwise the terminal driver's VTIME tenths of a second. *)
Definition wait_ms (s : serial) : Z :=
  if negb (timeout_ms s =? -1) && (timeout_ms s <? 100) then snooze_ms s * loops s else 100 * vtime s.
(** Serial::read(Byte&), serial_pos.hpp:443-479: [polls k]: result of the k-th ::read (0: nothing there).
    no_read is uninitialised when the loop never runs. *)
Fixpoint poll (n : nat) (k : nat) (polls : nat -> Z) (last : option Z) : option Z :=
  match n with
  | O => last
  | S n' => if polls k =? 0 then poll n' (S k) polls (Some 0) else Some (polls k)
  end.
Definition ser_read1 (debug : bool) (s : serial) (polls : nat -> Z) : res Z :=
  let r := if negb (timeout_ms s =? -1) && (timeout_ms s <? 100) then poll (Z.to_nat (loops s)) 0 polls None else Some (polls O) in
  match r with
  | None => UB
  | Some n => if n <? 0 then (if debug then Throw ReadError else Ok (-1)) else Ok n
  end.
