(** Model of LogStream (ecl_streams log_stream.hpp, log_stream.cpp) over shared files (ecl_devices shared_file.cpp):
    several streams, one per thread, that write to one file. Text is a list of character codes. *)
From Coq Require Import List ZArith Lia Bool.
From Verif Require Import Base DevModel TimeModel.
Import ListNotations.
Open Scope Z_scope.

(** * The configuration of a stream *)

(** write_header, write_stamp and modes, log_stream.hpp:216-218. None: the flag was never initialised. *)
Record cfg := Cfg { c_header : option bool; c_stamp : option bool; c_modes : list (Z * list Z) }.
(** LogStream(), log_stream.hpp:116: nothing is initialised; LogStream(name, mode), log_stream.hpp:130-141. *)
Definition cfg_default : cfg := Cfg None None [].
Definition cfg_new : cfg := Cfg (Some true) (Some true) [].

(** std::map: find, insert (keeps an element that is there already), erase. *)
Fixpoint find_mode (l : list (Z * list Z)) (m : Z) : option (list Z) :=
  match l with [] => None | (k, h) :: tl => if k =? m then Some h else find_mode tl m end.
Definition insert_mode (l : list (Z * list Z)) (m : Z) (h : list Z) : list (Z * list Z) :=
  match find_mode l m with Some _ => l | None => (m, h) :: l end.
Definition erase_mode (l : list (Z * list Z)) (m : Z) : list (Z * list Z) := filter (fun p => negb (fst p =? m)) l.
(** isEnabled and isModeEnabled, log_stream.cpp:40-55. *)
Definition is_enabled (c : cfg) : bool := 0 <? Zlen (c_modes c).
Definition is_mode_enabled (c : cfg) (m : Z) : bool := match find_mode (c_modes c) m with Some _ => true | None => false end.

(** * Calls, and what each of them does with the device *)

(** What one thread does with its stream. LOG and FLUSH are the macros, log_stream.hpp:44-61; the time stamp is what
    timestamp.stamp() reads; the text is what the program streams after it. *)
Inductive call :=
| EnableMode (m : Z) (h : list Z)      (* log_stream.cpp:37 *)
| DisableMode (m : Z)                  (* log_stream.cpp:38 *)
| EnableHeader | DisableHeader         (* log_stream.cpp:32-33 *)
| EnableStamp | DisableStamp           (* log_stream.cpp:34-35 *)
| LOG (m : Z) (now : ts) (text : list Z)
| FLUSH
| Direct (m : Z) (now : ts) (text : list Z). (* stream.log(m) << text without the macro *)

(** The device operations of a call: bytes in order, or a flush. A block write appends and flushes as writing its
    bytes one after the other does (lemma block_is_bytes). *)
Inductive micro := Byte (c : Z) | DoFlush.

(** log, log_stream.cpp:57-68: the prefix of a message. modes[mode] inserts an empty header when there is none. *)
Definition log_prefix (c : cfg) (m : Z) (now : ts) : res (cfg * list Z) :=
  match c_stamp c, c_header c with
  | Some s, Some h =>
      let c' := if h then Cfg (c_header c) (c_stamp c) (insert_mode (c_modes c) m []) else c in
      let header := match find_mode (c_modes c) m with Some t => t | None => [] end in
      Ok (c', (if s then ts_print now ++ [32] else []) ++
              (if h then [91] ++ header ++ [93; 32] else []) ++
              (if s || h then [58; 32] else []))
  | _, _ => UB
  end.
Definition expand (c : cfg) (k : call) : res (cfg * list micro) :=
  match k with
  | EnableMode m h => Ok (Cfg (c_header c) (c_stamp c) (insert_mode (c_modes c) m h), [])
  | DisableMode m => Ok (Cfg (c_header c) (c_stamp c) (erase_mode (c_modes c) m), [])
  | EnableHeader => Ok (Cfg (Some true) (c_stamp c) (c_modes c), [])
  | DisableHeader => Ok (Cfg (Some false) (c_stamp c) (c_modes c), [])
  | EnableStamp => Ok (Cfg (c_header c) (Some true) (c_modes c), [])
  | DisableStamp => Ok (Cfg (c_header c) (Some false) (c_modes c), [])
  | LOG m now text =>
      if is_mode_enabled c m then
        r <- log_prefix c m now ;; Ok (fst r, map Byte (snd r ++ text))
      else Ok (c, [])
  | FLUSH => if is_enabled c then Ok (c, [DoFlush]) else Ok (c, [])
  | Direct m now text => r <- log_prefix c m now ;; Ok (fst r, map Byte (snd r ++ text))
  end.

(** * Threads that share a file *)

(** One thread: its configuration, the private buffer of its SharedFile (shared_file.hpp:233-235), the device operations
    left of the call in progress, the calls to come, and whether a flush has thrown. *)
Record thr := Thr { t_cfg : cfg; t_buf : list Z; t_todo : list micro; t_prog : list call; t_raised : bool }.
Record sys := Sys { s_file : list Z; s_thr : nat -> thr }.
Definition upd (f : nat -> thr) (i : nat) (t : thr) : nat -> thr := fun j => if Nat.eqb j i then t else f j.

(** One step of thread i. Bytes and flushes are SharedFile::write(char) and flush, shared_file.cpp:177-216, of
    DevModel.v on a file that accepts every block (a block is one fwrite, which locks the FILE). A flush that throws
    (debug, empty buffer) leaves the buffer as it is; the program catches the exception. *)
Definition step (debug : bool) (s : sys) (i : nat) : res sys :=
  let t := s_thr s i in
  match t_todo t with
  | Byte c :: tl =>
      r <- sf_write1 debug true (mkSink (t_buf t) (s_file s)) c ;;
      Ok (Sys (out (fst r)) (upd (s_thr s) i (Thr (t_cfg t) (buf (fst r)) tl (t_prog t) (t_raised t))))
  | DoFlush :: tl =>
      match sf_flush debug true (mkSink (t_buf t) (s_file s)) with
      | Ok r => Ok (Sys (out (fst r)) (upd (s_thr s) i (Thr (t_cfg t) (buf (fst r)) tl (t_prog t) (t_raised t))))
      | Throw _ => Ok (Sys (s_file s) (upd (s_thr s) i (Thr (t_cfg t) (t_buf t) tl (t_prog t) true)))
      | UB => UB
      end
  | [] =>
      match t_prog t with
      | [] => Ok s
      | k :: tl =>
          r <- expand (t_cfg t) k ;;
          Ok (Sys (s_file s) (upd (s_thr s) i (Thr (fst r) (t_buf t) (snd r) tl (t_raised t))))
      end
  end.
Fixpoint run (debug : bool) (s : sys) (sched : list nat) : res sys :=
  match sched with [] => Ok s | i :: tl => s' <- step debug s i ;; run debug s' tl end.
(** Thread i runs the calls [progs i] on a stream with configuration [c]; the file holds [old]. *)
Definition start (c : cfg) (old : list Z) (progs : nat -> list call) : sys :=
  Sys old (fun i => Thr c [] [] (progs i) false).
