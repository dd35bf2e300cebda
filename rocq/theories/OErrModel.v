(** Output files and what they report: ecl_devices/src/lib/ofile_pos.cpp:35-164 and ofile_w32.cpp:36-163, which differ only in the system calls, with
    the templates of ofile_pos.hpp:137, 194, 291 and 307-324.  File names are numbers.  The answers of the system are inputs.  Errors are those of
    ErrnoModel.v; [None] is NoError.  Simplified: what a stream has taken counts as written; the write mode only matters for where bytes go in the
    file, which DevModel.v covers; messages are left out. *)
From Verif Require Import Base ErrnoModel.

(** exceptions/macros.hpp:45-127: exceptions disabled; NDEBUG; neither.  ecl_throw throws in the last two, ecl_debug_throw in the last. *)
Inductive build := NoExceptions | Release | Debug.
Definition throws (b : build) : bool := match b with NoExceptions => false | _ => true end.
Definition debug_throws (b : build) : bool := match b with Debug => true | _ => false end.

(** The FILE pointer: NULL; a stream on a file; one that fclose has been called on, which must not be used, whatever fclose returned. *)
Inductive stream := Null | On (f : nat) | Gone.
Record ofile := mkOF { of_stream : stream; of_name : nat; of_err : option flag; of_moved : list (nat * Z) }.
(** What a call ends in: a value (booleans are 0 and 1), an exception, undefined behaviour; and the object after it. *)
Inductive outcome := Ret (v : Z) | Thrown (e : flag) | Undefined.

(** The constructor without arguments, ofile_pos.cpp:35-38. *)
Definition of_new : ofile := mkOF Null 0 None [].
(** open(), ofile_pos.hpp:137; filename(), 194; error(), 291. *)
Definition of_is_open (f : ofile) : bool := match of_stream f with Null => false | _ => true end.
Definition of_filename (f : ofile) : nat := of_name f.
Definition of_error (f : ofile) : option flag := of_err f.

Definition with_err (f : ofile) (e : option flag) : ofile := mkOF (of_stream f) (of_name f) e (of_moved f).
Definition with_stream (f : ofile) (s : stream) : ofile := mkOF s (of_name f) (of_err f) (of_moved f).
Definition with_name (f : ofile) (n : nat) : ofile := mkOF (of_stream f) n (of_err f) (of_moved f).
(** ecl_throw(x); error_handler = e; return v *)
Definition fail (t : bool) (x e : flag) (v : Z) (f : ofile) : outcome * ofile := if t then (Thrown x, f) else (Ret v, with_err f (Some e)).

(** The system opens the file and makes a stream of the descriptor, or fails in the first or in the second, setting errno. *)
Inductive oans := OpenFails (errno : Z) | StreamFails (errno : Z) | Opens.
(** open(name, mode), ofile_pos.cpp:65-97, ofile_w32.cpp:66-96. *)
Definition of_open (b : build) (name : nat) (a : oans) (f : ofile) : outcome * ofile :=
  let f1 := with_name f name in
  match a with
  | OpenFails e => fail (throws b) (open_exception e) (open_error e) 0 f1
  | StreamFails e => fail (throws b) (open_exception e) (open_error e) 0 (with_stream f1 Null)
  | Opens => (Ret 1, with_err (with_stream f1 (On name)) None)
  end.
(** close(), ofile_pos.cpp:99-111, ofile_w32.cpp:98-110; [a]: errno if fclose fails. *)
Definition of_close (b : build) (a : option Z) (f : ofile) : outcome * ofile :=
  match of_stream f with
  | Gone => (Undefined, f)
  | Null => (Ret 1, with_err f None)
  | On _ =>
    match a with
    | Some e => fail (throws b) (close_exception e) (close_error e) 0 (with_stream f Gone)
    | None => (Ret 1, with_err (with_stream f Null) None)
    end
  end.
(** fwrite(s, n, 1, file): the number of items, 0 or 1, and the bytes moved.  [short]: how many bytes were moved before it failed. *)
Definition fwrite (short : option nat) (s : list Z) : Z * list Z :=
  match s with
  | [] => (0, [])
  | _ => match short with None => (1, s) | Some k => (0, firstn (Nat.min k (length s - 1)) s) end
  end.
(** write(s, n), ofile_pos.cpp:134-150, ofile_w32.cpp:133-149. *)
Definition of_write (b : build) (s : list Z) (short : option nat) (f : ofile) : outcome * ofile :=
  match of_stream f with
  | Null => fail (debug_throws b) OpenError OpenError (-1) f
  | Gone => (Undefined, f)
  | On n =>
    let (items, moved) := fwrite short s in
    let f1 := mkOF (On n) (of_name f) (of_err f) (of_moved f ++ map (pair n) moved) in
    if items <=? 0 then fail (debug_throws b) WriteError WriteError (-1) f1 else (Ret (Zlen s * items), with_err f1 None)
  end.
(** write(c), ofile_pos.cpp:116-132, ofile_w32.cpp:115-131: one item of one byte. *)
Definition of_write1 (b : build) (c : Z) (ok : bool) (f : ofile) : outcome * ofile := of_write b [c] (if ok then None else Some 0%nat) f.
(** write(byte_array), ofile_pos.hpp:307-324, ofile_w32.hpp:307-324: &byte_array[0] of an empty vector is undefined. *)
Definition of_write_array (b : build) (s : list Z) (short : option nat) (f : ofile) : outcome * ofile :=
  match of_stream f, s with
  | On _, [] => (Undefined, f)
  | _, _ => of_write b s short f
  end.
(** flush(), ofile_pos.cpp:152-164, ofile_w32.cpp:151-163: fflush(NULL) flushes all streams. *)
Definition of_flush (b : build) (ok : bool) (f : ofile) : outcome * ofile :=
  match of_stream f with
  | Gone => (Undefined, f)
  | _ => if ok then (Ret 1, with_err f None) else fail (debug_throws b) UnknownError UnknownError 0 f
  end.
(** ~OFile, ofile_pos.cpp:51-60, ofile_w32.cpp:52-61. *)
Definition of_destroy (f : ofile) : outcome := match of_stream f with Gone => Undefined | _ => Ret 0 end.

(** The calls of a user. *)
Inductive ocall := COpen (name : nat) (a : oans) | CClose (a : option Z) | CWrite (s : list Z) (short : option nat) | CWrite1 (c : Z) (ok : bool)
| CWriteArray (s : list Z) (short : option nat) | CFlush (ok : bool).
Definition of_call (b : build) (c : ocall) (f : ofile) : outcome * ofile :=
  match c with
  | COpen n a => of_open b n a f
  | CClose a => of_close b a f
  | CWrite s k => of_write b s k f
  | CWrite1 c ok => of_write1 b c ok f
  | CWriteArray s k => of_write_array b s k f
  | CFlush ok => of_flush b ok f
  end.
(** A history: the object and the outcomes, the last first. *)
Fixpoint of_run (b : build) (l : list ocall) (f : ofile) (r : list outcome) : list outcome * ofile :=
  match l with [] => (r, f) | c :: tl => let (o, f1) := of_call b c f in of_run b tl f1 (o :: r) end.
