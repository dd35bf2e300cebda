(** C223-C225: the settings of serial ports. *)
From Verif Require Import Base SCfgModel.
Open Scope Z_scope.

(** * What was asked for, and what the flags of Linux mean (termios(3)) *)
Definition bits_per_second (b : baud) : Z :=
  match b with B_110 => 110 | B_300 => 300 | B_600 => 600 | B_1200 => 1200 | B_2400 => 2400 | B_4800 => 4800 | B_9600 => 9600 | B_19200 => 19200 | B_38400 => 38400
  | B_57600 => 57600 | B_115200 => 115200 | B_230400 => 230400 | B_460800 => 460800 | B_921600 => 921600 end.
Definition data_of (d : dbits) : Z := match d with D5 => 5 | D6 => 6 | D7 => 7 | D8 => 8 end.
(** The rates of Linux: bits 0-3 and 12 of c_cflag. *)
Definition speed_of (c : Z) : Z :=
  nth (Z.to_nat (c mod 16)) (if Z.testbit c 12 then [0; 57600; 115200; 230400; 460800; 500000; 576000; 921600; 1000000; 1152000; 1500000; 2000000; 2500000; 3000000; 3500000; 4000000]
                            else [0; 50; 75; 110; 134; 150; 200; 300; 600; 1200; 1800; 2400; 4800; 9600; 19200; 38400]) 0.
Definition size_of (c : Z) : Z := 5 + (c / 16) mod 4.
Definition two_stop (c : Z) : bool := Z.testbit c 6.
Definition receives (c : Z) : bool := Z.testbit c 7.
Definition parity_of (c : Z) : option bool := if Z.testbit c 8 then Some (Z.testbit c 9) else None.   (* Some true: odd *)
Definition local (c : Z) : bool := Z.testbit c 11.
Definition hardware_flow (c : Z) : bool := Z.testbit c 31.
Definition software_flow (i : Z) : bool := Z.testbit i 10 || Z.testbit i 11 || Z.testbit i 12.
Definition raw (l : Z) : bool := negb (Z.testbit l 0 || Z.testbit l 1 || Z.testbit l 3).
Definition odd_asked (p : par) : option bool := match p with NoPar => None | OddPar => Some true | EvenPar => Some false end.

Lemma timed_flags t timeout : cflag (timed t timeout) = cflag t /\ iflag (timed t timeout) = iflag t /\ lflag (timed t timeout) = lflag t /\ oflag (timed t timeout) = oflag t.
Proof. unfold timed. destruct timeout as [ms|]; [destruct (ms <? 100)|]; repeat split. Qed.
Lemma settings_ok old b d s p :
  match settings old b d s p with
  | Ok t => s <> S15 /\ speed_of (cflag t) = bits_per_second b /\ size_of (cflag t) = data_of d /\ two_stop (cflag t) = (match s with S2 => true | _ => false end) /\
    parity_of (cflag t) = odd_asked p /\ receives (cflag t) = true /\ local (cflag t) = true /\
    hardware_flow (cflag t) = false /\ software_flow (iflag t) = false /\ raw (lflag t) = true /\ oflag t = 0
  | Throw e => s = S15 /\ e = ConfigurationError
  | UB => False
  end.
Proof. destruct old, b, d, s, p; vm_compute; repeat split; discriminate. Qed.
(** The input flags. *)
Lemma settings_input old b d s p t : settings old b d s p = Ok t -> iflag t = match p with NoPar => 0 | _ => 48 end.
Proof. destruct old, b, d, s, p; vm_compute; intros E; try discriminate; injection E as <-; reflexivity. Qed.
Lemma opened_input old timeout b d s p t : opened old timeout b d s p = Ok t -> iflag t = match p with NoPar => 0 | _ => 48 end.
Proof.
  unfold opened. destruct (settings old b d s p) as [t0|e|] eqn:S; try discriminate. cbn [bind]. intros E. injection E as <-. destruct (timed_flags t0 timeout) as (_ & -> & _). exact (settings_input old b d s p t0 S).
Qed.
(** * C223 *)
(** Opening a port sets what was asked for, whatever the object was used for before: rate, data bits, stop bits and parity, no flow
    control, no line editing, echo or signals, no output processing. One and a half stop bits are refused. *)
Theorem C223_settings : forall old timeout b d s p,
  match opened old timeout b d s p with
  | Ok t => s <> S15 /\ speed_of (cflag t) = bits_per_second b /\ size_of (cflag t) = data_of d /\ two_stop (cflag t) = (match s with S2 => true | _ => false end) /\
    parity_of (cflag t) = odd_asked p /\ receives (cflag t) = true /\ local (cflag t) = true /\
    hardware_flow (cflag t) = false /\ software_flow (iflag t) = false /\ raw (lflag t) = true /\ oflag t = 0
  | Throw e => s = S15 /\ e = ConfigurationError
  | UB => False
  end.
Proof.
  intros old timeout b d s p. unfold opened. pose proof (settings_ok old b d s p) as H. destruct (settings old b d s p) as [t|e|]; [|exact H|exact H]. cbn [bind].
  destruct (timed_flags t timeout) as (-> & -> & -> & ->). exact H.
Qed.
Print Assumptions C223_settings.
(** Reopening with the same arguments and timeout gives the same settings. *)
Theorem C223_reopen : forall old1 old2 timeout b d s p, opened old1 timeout b d s p = opened old2 timeout b d s p.
Proof.
  intros old1 old2 timeout b d s p. unfold opened.
  assert (X : match settings old1 b d s p, settings old2 b d s p with Ok t1, Ok t2 => iflag t1 = iflag t2 /\ oflag t1 = oflag t2 /\ cflag t1 = cflag t2 /\ lflag t1 = lflag t2 | Throw a, Throw c => a = c | _, _ => False end).
  { destruct old1, old2, b, d, s, p; vm_compute; auto. }
  destruct (settings old1 b d s p) as [t1|e1|], (settings old2 b d s p) as [t2|e2|]; try contradiction; cbn [bind]; [|congruence]. destruct X as (X1 & X2 & X3 & X4).
  f_equal. unfold timed. rewrite X1, X2, X3, X4. reflexivity.
Qed.
Print Assumptions C223_reopen.
(** The driver's timer is a byte that counts tenths of a second: timeouts from 0.1 s to 25.5 s are set to the tenth below, longer ones modulo 25.6 s;
    without a timeout, and for shorter ones, reading does not wait. *)
Theorem C223_timeout : forall old timeout b d s p t, opened old timeout b d s p = Ok t ->
  0 <= vtime t < 256 /\ vmin t = 0 /\
  match timeout with
  | None => vtime t = 0
  | Some ms => (ms < 100 -> vtime t = 0) /\ (100 <= ms < 25600 -> 100 * vtime t <= ms < 100 * vtime t + 100) /\
               (100 <= ms -> exists k, ms - 25600 * k - 100 < 100 * vtime t <= ms - 25600 * k)
  end.
Proof.
  intros old timeout b d s p t E. unfold opened in E. destruct (settings old b d s p) as [t0|e|]; try discriminate. cbn [bind] in E. injection E as <-.
  unfold timed. destruct timeout as [ms|]; [|cbn; lia]. destruct (Z.ltb_spec ms 100); cbn [vtime vmin]; [lia|].
  pose proof (Z.mod_pos_bound (ms / 100) 256 ltac:(lia)). pose proof (Z.div_mod (ms / 100) 256 ltac:(lia)). pose proof (Z.div_mod ms 100 ltac:(lia)). pose proof (Z.mod_pos_bound ms 100 ltac:(lia)).
  split; [lia|]. split; [reflexivity|]. split; [lia|]. split.
  - intros M. rewrite Z.mod_small; [lia|]. split; [apply Z.div_pos; lia|apply Z.div_lt_upper_bound; lia].
  - intros _. exists (ms / 100 / 256). lia.
Qed.
Print Assumptions C223_timeout.
Example C223_timeout_case : exists t, opened (mkT 1 2 3 4 5 6) (Some 26000) B_9600 D8 S1 NoPar = Ok t /\ vtime t = 4.
Proof. eexists. split; reflexivity. Qed.
Example C223_case : opened (mkT 5 5 5 5 5 5) (Some 5000) B_9600 D7 S2 EvenPar = Ok (mkT 48 0 (13 + 2048 + 128 + 64 + 32 + 256) 0 0 50).
Proof. reflexivity. Qed.

(** * C224: bytes *)
(** What the line discipline of Linux delivers for a character of the given data bits: a parity error becomes a zero byte if INPCK is
    set (neither IGNPAR nor PARMRK), else the character is as it came; ISTRIP clears the eighth bit. *)
Definition delivered (t : termios) (bits : Z) (bad : bool) : Z :=
  let c := bits mod 2 ^ size_of (cflag t) in
  let c := if Z.testbit (cflag t) 8 && bad && Z.testbit (iflag t) 4 then 0 else c in
  if Z.testbit (iflag t) 5 then c mod 128 else c.
(** Between two ports with the same settings every byte that fits into the data bits arrives... with parity only if these are fewer
    than eight. *)
Theorem C224_bytes_partial : forall old timeout b d s p t c, opened old timeout b d s p = Ok t -> 0 <= c < 2 ^ data_of d -> p = NoPar \/ d <> D8 -> delivered t c false = c.
Proof.
  intros old timeout b d s p t c E C P. pose proof (C223_settings old timeout b d s p) as S. rewrite E in S. destruct S as (_ & _ & S & _). unfold delivered. rewrite S, andb_false_r. cbn [andb].
  rewrite (Z.mod_small c) by exact C. destruct (Z.testbit (iflag t) 5) eqn:I; [|reflexivity]. apply Z.mod_small.
  assert (p <> NoPar). { intros ->. rewrite (opened_input _ _ _ _ _ _ _ E) in I. discriminate. }
  destruct P as [P|P]; [contradiction|]. destruct d; cbn in C; try lia. contradiction.
Qed.
Print Assumptions C224_bytes_partial.
(** With eight data bits and a parity the highest bit of every byte is lost. *)
Theorem C224_high_bit_refuted : forall old timeout b s p t c, opened old timeout b D8 s p = Ok t -> p <> NoPar -> 128 <= c < 256 -> delivered t c false = c - 128.
Proof.
  intros old timeout b s p t c E P C. pose proof (C223_settings old timeout b D8 s p) as S. rewrite E in S. destruct S as (_ & _ & S & _). unfold delivered. rewrite S, andb_false_r. cbn [andb data_of].
  change (2 ^ 8) with 256. rewrite (Z.mod_small c 256) by lia.
  assert (Z.testbit (iflag t) 5 = true) as ->. { rewrite (opened_input _ _ _ _ _ _ _ E). destruct p; [contradiction|reflexivity|reflexivity]. }
  symmetry. apply (Z.mod_unique c 128 1); lia.
Qed.
Print Assumptions C224_high_bit_refuted.
(** A byte that fails the parity check is delivered, as a zero byte: it cannot be told from a zero that was sent. *)
Theorem C224_corrupted_refuted : forall old timeout b d s p t c, opened old timeout b d s p = Ok t -> p <> NoPar -> delivered t c true = 0 /\ delivered t 0 false = 0.
Proof.
  intros old timeout b d s p t c E P.
  assert (Z.testbit (cflag t) 8 = true /\ Z.testbit (iflag t) 4 = true) as [H1 H2]. { rewrite (opened_input _ _ _ _ _ _ _ E). pose proof (C223_settings old timeout b d s p) as S. rewrite E in S. destruct S as (_ & _ & _ & _ & S & _). unfold parity_of in S. destruct (Z.testbit (cflag t) 8); destruct p; try contradiction; try discriminate; auto. }
  unfold delivered. rewrite H1, H2. cbn [andb]. rewrite (Z.mod_0_l (2 ^ size_of (cflag t))) by (apply Z.pow_nonzero; [lia|]; unfold size_of; pose proof (Z.mod_pos_bound (cflag t / 16) 4); lia). destruct (Z.testbit (iflag t) 5); split; reflexivity.
Qed.
Print Assumptions C224_corrupted_refuted.
Example C224_case : forall t, opened (mkT 0 0 0 0 0 0) None B_115200 D8 S1 NoPar = Ok t -> delivered t 200 false = 200.
Proof. intros t E. apply (C224_bytes_partial _ _ _ _ _ _ t 200 E); [cbn; lia|now left]. Qed.

(** * C225: Windows *)
Definition w_as_asked (b : baud) (d : dbits) (p : par) (stop : Z) (r : res dcb) : Prop :=
  exists c, r = Ok c /\ BaudRate c = bits_per_second b /\ ByteSize c = data_of d /\ StopBits c = stop /\
    Parity c = (match p with NoPar => 0 | OddPar => 1 | EvenPar => 2 end) /\ fInX c = false /\ fOutX c = false /\ fCts c = false /\ fDsr c = false.
(** With one stop bit and a rate of at most 115200 the settings are those asked for. *)
Theorem C225_settings_partial : forall old b d p, bits_per_second b <= 115200 -> w_as_asked b d p 0 (w_settings old b d S1 p).
Proof. intros old b d p H. destruct b; cbn in H; try lia; destruct d, p; eexists; (split; [reflexivity|]); repeat split. Qed.
Print Assumptions C225_settings_partial.
(** Higher rates and two stop bits read behind the end of the tables; one and a half stop bits become two. *)
Theorem C225_rates_refuted : forall old b d s p, 115200 < bits_per_second b -> w_settings old b d s p = UB.
Proof. intros old b d s p H. destruct b; cbn in H; try lia; reflexivity. Qed.
Print Assumptions C225_rates_refuted.
Theorem C225_two_stop_bits_refuted : forall old b d p, w_settings old b d S2 p = UB.
Proof. intros old b d p. destruct b; try reflexivity; destruct d, p; reflexivity. Qed.
Print Assumptions C225_two_stop_bits_refuted.
Theorem C225_one_and_a_half_refuted : forall old b d p, bits_per_second b <= 115200 -> w_as_asked b d p 2 (w_settings old b d S15 p).
Proof. intros old b d p H. destruct b; cbn in H; try lia; destruct d, p; eexists; (split; [reflexivity|]); repeat split. Qed.
Print Assumptions C225_one_and_a_half_refuted.
(** Parity checking is not switched on: it stays as the port was left. *)
Theorem C225_parity_check_refuted : forall old b d p c, w_settings old b d S1 p = Ok c -> fParity c = fParity old.
Proof. intros old b d p c E. destruct b, d, p; try discriminate; injection E as <-; reflexivity. Qed.
Print Assumptions C225_parity_check_refuted.
