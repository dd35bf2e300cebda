(** Text streams that write to files: ecl_streams/include/ecl/streams/text_streams/output_text_stream.hpp, base_text_stream.hpp, file_streams.hpp,
    the manipulators, and the constructors of the other streams.  The device is the output file of OErrModel.v.  Numbers are given by the text the
    Converter makes of them (StreamModel.v and FConvModel.v model those texts).  The answers of the system to writes and flushes come from a list; when it
    is used up the system does what it is asked. *)
From Verif Require Import Base ErrnoModel OErrModel.

(** BaseTextStream, base_text_stream.hpp:43-54: the error and the device; with the answers still to come ([Some k]: a write is cut after k bytes, a
    flush fails). *)
Record fstr := mkFS { fs_err : option flag; fs_dev : ofile; fs_answers : list (option nat) }.
(** fail(), base_text_stream.hpp:78-84; errorStatus(), 94-96. *)
Definition fs_fail (s : fstr) : bool := match fs_err s with None => false | Some _ => true end.
Definition fs_status (s : fstr) : option flag := fs_err s.

Definition next (s : fstr) : option nat := match fs_answers s with [] => None | a :: _ => a end.
(** A call of the device: what it returns is dropped, an exception is not caught. *)
Definition device_call (s : fstr) (r : outcome * ofile) : outcome * fstr :=
  (match fst r with Ret _ => Ret 0 | o => o end, mkFS (fs_err s) (snd r) (tl (fs_answers s))).
(** ecl_assert_throw(io_device.open(), OpenError) before [k]. *)
Definition when_open (b : build) (k : fstr -> outcome * fstr) (s : fstr) : outcome * fstr :=
  if debug_throws b && negb (of_is_open (fs_dev s)) then (Thrown OpenError, s) else k s.
Definition and_then (r : outcome * fstr) (k : fstr -> outcome * fstr) : outcome * fstr :=
  match fst r with Ret _ => k (snd r) | _ => r end.

(** strlen *)
Fixpoint c_string (s : list Z) : list Z := match s with [] => [] | c :: tl => if c =? 0 then [] else c :: c_string tl end.
(** operator<< (char), output_text_stream.hpp:159-163. *)
Definition put_char (b : build) (c : Z) : fstr -> outcome * fstr :=
  when_open b (fun s => device_call s (of_write b [c] (next s) (fs_dev s))).
(** operator<< of a C string, 173-177. *)
Definition put_cstr (b : build) (t : list Z) : fstr -> outcome * fstr :=
  when_open b (fun s => device_call s (of_write b (c_string t) (next s) (fs_dev s))).
(** operator<< (const std::string&), 188-192. *)
Definition put_str (b : build) (t : list Z) : fstr -> outcome * fstr :=
  when_open b (fun s => device_call s (of_write b t (next s) (fs_dev s))).
(** operator<< of numbers, 201-309 and 332-351: the text of the Converter. *)
Definition put_num (b : build) (t : list Z) : fstr -> outcome * fstr := when_open b (put_cstr b t).
(** operator<< (bool), 318-323. *)
Definition put_bool (b : build) (v : bool) : fstr -> outcome * fstr :=
  when_open b (put_cstr b (if v then [116; 114; 117; 101] else [102; 97; 108; 115; 101])).
(** flush(), 361-364. *)
Definition fs_flush (b : build) : fstr -> outcome * fstr :=
  when_open b (fun s => device_call s (of_flush b (match next s with None => true | Some _ => false end) (fs_dev s))).
(** EndOfLine::action, manipulators/end_of_line.hpp:55-58, called by Manipulator::insert, manipulator.hpp:109-112. *)
Definition put_endl (b : build) (s : fstr) : outcome * fstr := and_then (put_cstr b [10] s) (fs_flush b).
(** ClearScreen::action, manipulators/clear_screen.hpp:64-68. *)
Fixpoint newlines (b : build) (n : nat) (s : fstr) : outcome * fstr :=
  match n with O => (Ret 0, s) | S n' => and_then (put_cstr b [10] s) (newlines b n') end.
Definition put_clrscr (b : build) : fstr -> outcome * fstr := newlines b 80.

(** What a user inserts. *)
Inductive item := IChar (c : Z) | ICStr (t : list Z) | IStr (t : list Z) | INum (t : list Z) | IBool (v : bool) | IEndl | IClrscr | IFlush.
Definition put (b : build) (i : item) : fstr -> outcome * fstr :=
  match i with
  | IChar c => put_char b c | ICStr t => put_cstr b t | IStr t => put_str b t | INum t => put_num b t | IBool v => put_bool b v
  | IEndl => put_endl b | IClrscr => put_clrscr b | IFlush => fs_flush b
  end.
(** Insertions one after the other; an exception ends them. *)
Fixpoint puts (b : build) (l : list item) (s : fstr) : outcome * fstr :=
  match l with [] => (Ret 0, s) | i :: tl => and_then (put b i s) (puts b tl) end.

(** What constructing a stream ends in: a stream, or an exception (StandardException(LOC,e) keeps the flag, standard_exception.cpp:47-54). *)
Inductive made := Made (s : fstr) | NotMade (e : flag).
(** OFileStream(name, mode), file_streams.hpp:63-71. *)
Definition ofile_stream (b : build) (name : nat) (a : oans) (answers : list (option nat)) : made :=
  match of_open b name a of_new with
  | (Thrown e, _) => NotMade e
  | (Ret v, f) => Made (mkFS (if v =? 0 then of_error f else None) f answers)
  | (Undefined, f) => Made (mkFS None f answers)
  end.

(** Opening a device: it fails with the flag of its exception and the flag of its error(), or succeeds. *)
Inductive dans := Fails (x e : flag) | Opened.
(** The error of the stream, or the flag of the exception.  Streams of shared files (shared_file_stream.hpp:63-71) and
    connections (socket_streams.hpp:68-76). *)
Definition checked_ctor (b : build) (a : dans) : option flag + flag :=
  match a with
  | Fails x e => if throws b then inr x else inl (Some e)
  | Opened => inl None
  end.
(** SocketServerStream, socket_streams.hpp:112-118: the result of open() is not looked at. *)
Definition server_ctor (b : build) (a : dans) : option flag + flag :=
  match a with
  | Fails x e => if throws b then inr x else inl None
  | Opened => inl None
  end.
(** SerialStream, serial_stream.hpp:65-76: asks open() instead of the result.  A port is not open after a failure, serial_pos.cpp:90-277, and
    open() closes a port whose device file is gone by then, serial_pos.cpp:289-297.  With what open() says. *)
Definition serial_ctor (b : build) (a : dans) (present : bool) : (option flag * bool) + flag :=
  match a with
  | Fails x e => if throws b then inr x else inl (Some e, false)
  | Opened => if present then inl (None, true) else inl (None, false)
  end.
