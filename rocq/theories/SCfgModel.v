(** Model of the settings of a serial port: /repo/ecl_devices/src/lib/serial_pos.cpp:97-104, 123-132, 165-253, 267-271, 303-363 (termios of
    Linux) and serial_w32.cpp:119-122, 152-183 (DCB), with serial_parameters.hpp.  Only the settings: opening, closing and descriptors
    are SockModel's, timeouts DevModel's subject.  termios flags are non-negative integers with the values of Linux. *)
From Verif Require Import Base.
Open Scope Z_scope.

(** serial_parameters.hpp. *)
Inductive baud := B_110 | B_300 | B_600 | B_1200 | B_2400 | B_4800 | B_9600 | B_19200 | B_38400 | B_57600 | B_115200 | B_230400 | B_460800 | B_921600.
Inductive dbits := D5 | D6 | D7 | D8.
Inductive sbits := S1 | S15 | S2.
Inductive par := NoPar | OddPar | EvenPar.
(** The values of the enumerators. *)
Definition baud_ix (b : baud) : Z :=
  match b with B_110 => 0 | B_300 => 1 | B_600 => 2 | B_1200 => 3 | B_2400 => 4 | B_4800 => 5 | B_9600 => 6 | B_19200 => 7 | B_38400 => 8 | B_57600 => 9
  | B_115200 => 10 | B_230400 => 11 | B_460800 => 12 | B_921600 => 13 end.
Definition dbits_ix (d : dbits) : Z := match d with D5 => 0 | D6 => 1 | D7 => 2 | D8 => 3 end.
Definition sbits_ix (s : sbits) : Z := match s with S1 => 0 | S15 => 1 | S2 => 2 end.
Definition par_ix (p : par) : Z := match p with NoPar => 0 | OddPar => 1 | EvenPar => 2 end.

(** <bits/termios.h> of Linux. *)
Definition CBAUD : Z := 4111.      Definition CSIZE : Z := 48.       Definition CSTOPB : Z := 64.     Definition CREAD : Z := 128.
Definition PARENB : Z := 256.      Definition PARODD : Z := 512.     Definition CLOCAL : Z := 2048.   Definition CRTSCTS : Z := 2147483648.
Definition INPCK : Z := 16.        Definition ISTRIP : Z := 32.      Definition IXON : Z := 1024.     Definition IXANY : Z := 2048.
Definition IXOFF : Z := 4096.      Definition ISIG : Z := 1.         Definition ICANON : Z := 2.      Definition ECHO : Z := 8.
Definition ECHOE : Z := 16.
Definition baud_flags : list Z := [3; 7; 8; 9; 11; 12; 13; 14; 15; 4097; 4098; 4099; 4100; 4103].   (* serial_pos.cpp:123-124: B110 ... B921600 *)
Definition data_flags : list Z := [0; 16; 32; 48].                                                  (* serial_pos.cpp:132: CS5 ... CS8 *)
Record termios := mkT { iflag : Z; oflag : Z; cflag : Z; lflag : Z; vmin : Z; vtime : Z }.
Definition clear (x mask : Z) : Z := Z.land x (Z.lnot mask).
Definition set (x mask : Z) : Z := Z.lor x mask.
Definition look (l : list Z) (i : Z) : res Z := match zget l i with Some x => Ok x | None => UB end.
(** serial_pos.cpp:97-132, 165-253; [old]: the options member as it was. cfsetspeed replaces the bits of CBAUD and succeeds for the flags of the table. *)
Definition settings (old : termios) (b : baud) (d : dbits) (s : sbits) (p : par) : res termios :=
  match s with
  | S15 => Throw ConfigurationError
  | _ =>
    if 14 <=? baud_ix b then Throw ConfigurationError
    else
      bf <- look baud_flags (baud_ix b) ;;
      df <- look data_flags (dbits_ix d) ;;
      let c := set (clear 0 CBAUD) bf in
      let c := set (set c CLOCAL) CREAD in
      let c := clear c CRTSCTS in
      let c := match s with S1 => clear c CSTOPB | _ => set c CSTOPB end in
      let c := set (clear c CSIZE) df in
      let l := clear 0 (ICANON + ECHO + ECHOE + ISIG) in
      let i := clear 0 (IXON + IXOFF + IXANY) in
      let i := match p with NoPar => i | _ => set i (INPCK + ISTRIP) end in
      let c := match p with NoPar => clear c PARENB | EvenPar => clear (set c PARENB) PARODD | OddPar => set (set c PARENB) PARODD end in
      Ok (mkT i 0 c l (vmin old) (vtime old))
  end.
(** serial_pos.cpp:267-271: block or unblock with the timeout kept in the object (None: NonBlocking); serial_pos.cpp:340-353 for 100 ms and more. *)
Definition timed (t : termios) (timeout : option Z) : termios :=
  match timeout with
  | None => mkT (iflag t) (oflag t) (cflag t) (lflag t) 0 0
  | Some ms => if ms <? 100 then mkT (iflag t) (oflag t) (cflag t) (lflag t) 0 0
               else mkT (iflag t) (oflag t) (cflag t) (lflag t) 0 (ms / 100 mod 256)
  end.
Definition opened (old : termios) (timeout : option Z) (b : baud) (d : dbits) (s : sbits) (p : par) : res termios :=
  t <- settings old b d s p ;; Ok (timed t timeout).

(** * Windows *)
(** serial_w32.cpp:119-122: CBR_ constants are the rates. ONESTOPBIT 0, ONE5STOPBITS 1, TWOSTOPBITS 2; NOPARITY 0, ODDPARITY 1,
    EVENPARITY 2. *)
Definition w_baud_flags : list Z := [110; 300; 600; 1200; 2400; 4800; 9600; 19200; 38400; 57600; 115200].
Definition w_stop_flags : list Z := [0; 2].
Definition w_parity_flags : list Z := [0; 1; 2].
Definition w_data_flags : list Z := [5; 6; 7; 8].
(** The members written, serial_w32.cpp:165-183; the others keep what GetCommState delivered. *)
Record dcb := mkDcb { BaudRate : Z; ByteSize : Z; Parity : Z; StopBits : Z; fNull : bool; fInX : bool; fOutX : bool; fDtr : Z; fRts : Z; fCts : bool; fDsr : bool; fParity : bool }.
Definition w_settings (old : dcb) (b : baud) (d : dbits) (s : sbits) (p : par) : res dcb :=
  br <- look w_baud_flags (baud_ix b) ;; bs <- look w_data_flags (dbits_ix d) ;;
  pa <- look w_parity_flags (par_ix p) ;; st <- look w_stop_flags (sbits_ix s) ;;
  Ok (mkDcb br bs pa st false false false 0 0 false false (fParity old)).
