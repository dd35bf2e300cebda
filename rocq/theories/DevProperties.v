(** Theorems about ecl_devices (C17-C20, C76-C82). *)
From Verif Require Import Base DevModel DevProofs.
Open Scope Z_scope.

(** C17: a console, for any history of writes and flushes without NUL bytes. *)
Theorem C17_console_preserves_bytes : forall l, ~ In 0 (written l) ->
  exists s, con_run (mkSink [] []) l = Ok s /\ out s ++ buf s = written l.
Proof. intros l H. destruct (con_run_ok l (mkSink [] []) [] (con_inv_empty []) H) as (s & H1 & _ & _ & H2). exists s. auto. Qed.
Print Assumptions C17_console_preserves_bytes.
Example C17_console_long : ~ In 0 (written [W1 65; WN (repeat 66 (Z.to_nat 9000)); WFlush; WN [67]]).
Proof.
  intros F. apply in_flat_map in F. destruct F as (o & Ho & F). destruct Ho as [<-|[<-|[<-|[<-|[]]]]]; unfold bytes in F.
  - destruct F as [F|[]]. discriminate.
  - apply repeat_spec in F. discriminate.
  - destruct F.
  - destruct F as [F|[]]. discriminate.
Qed.
(** C17: a console's buffer never overflows, whatever is written. *)
Theorem C17_console_no_overflow : forall l, exists s, con_run (mkSink [] []) l = Ok s.
Proof. intros l. destruct (con_safe l (mkSink [] [])) as (s & H & _); [reflexivity|]. exists s. exact H. Qed.
Print Assumptions C17_console_no_overflow.
(** C17: a shared file whose file accepts every write, any bytes, debug and release builds. *)
Theorem C17_shared_file_preserves_bytes : forall debug l,
  exists s, sf_run debug (mkSink [] []) l = Ok s /\ out s ++ buf s = written l /\ Zlen (buf s) < 4096.
Proof. intros debug l. destruct (sf_run_ok debug l (mkSink [] []) [] (sf_inv_empty [])) as (s & H1 & H2 & H3). exists s. auto. Qed.
Print Assumptions C17_shared_file_preserves_bytes.
(** C17: after a flush nothing is left in the buffer, so everything written has been handed over. *)
Theorem C17_flush_hands_over : forall debug l,
  (exists s, sf_run debug (mkSink [] []) (l ++ [WFlush]) = Ok s /\ out s = written l) /\
  (~ In 0 (written l) -> exists s, con_run (mkSink [] []) (l ++ [WFlush]) = Ok s /\ out s = written l).
Proof. exact flush_hands_over. Qed.
Print Assumptions C17_flush_hands_over.

(** C81: text after a NUL byte is dropped by the console. *)
Theorem C81_console_nul_refuted :
  exists l s, con_run (mkSink [] []) l = Ok s /\ out s ++ buf s <> written l.
Proof. exists [WN [65; 0; 66]; WFlush]. eexists. split; [vm_compute; reflexivity|]. vm_compute. discriminate. Qed.
Print Assumptions C81_console_nul_refuted.

(** C18 (partial): over histories whose single-byte writes happen before any clear and reach at most 256 bytes
    beyond the initial text, the device is a byte queue and never leaves its allocation.  Block writes, reads,
    clear, c_str, str and remaining are unrestricted. *)
Theorem C18_string_device_queue_partial : forall s l, safe (Some (Zlen s)) (Zlen s) l ->
  exists d, str_new s = Ok d /\ str_run d l = Ok (q_run (s, s) l).
Proof. intros s l H. destruct (str_new_ok s) as (d & H1 & H2). exists d. split; [exact H1|]. exact (str_run_ok l _ d s s H2 H). Qed.
Print Assumptions C18_string_device_queue_partial.
Example C18_string_case : safe (Some 2) 2 [SW1 67; SRN 2; SWN [68; 69]; SCStr; SR1; SClear; SWN [70]; SRem; SStr] /\
  q_run ([65; 66], [65; 66]) [SW1 67; SRN 2; SWN [68; 69]; SCStr; SR1; SClear; SWN [70]; SRem; SStr] =
    [[]; [65; 66]; []; [65; 66; 67; 68; 69; 0]; [67]; []; []; [1]; [70]].
Proof. split; [cbn; lia|reflexivity]. Qed.
(** C18: single-byte writes overflow the allocation. *)
Theorem C18_single_writes_overflow_refuted : exists d, str_new [] = Ok d /\ str_run d (repeat (SW1 65) 258) = UB.
Proof. eexists. split; [reflexivity|]. vm_compute. reflexivity. Qed.
Print Assumptions C18_single_writes_overflow_refuted.
(** C18: so do two single-byte writes after clear, whatever happened before. *)
Theorem C18_write_after_clear_refuted : forall d a b, str_run d [SClear; SW1 a; SW1 b] = UB.
Proof. intros. reflexivity. Qed.
Print Assumptions C18_write_after_clear_refuted.

(** C19 (partial): objects attached and destroyed in any order, any names, every open succeeding: each file is
    opened on first use and closed on last use, count() is the number of users and nothing blocks. *)
Theorem C19_registry_partial : forall l, well_used ([], []) l -> Zlen l < two32 ->
  exists s, reg_run reg0 l = Fine s /\ log s = snd (spec_run l) /\
    forall h n, lookup h (fst (spec_run l)) = Some n -> reg_count s h = Some (count n (fst (spec_run l))).
Proof.
  intros l H1 H2. destruct (reg_run_ok l reg0 ([], []) reg0_inv H1) as (s & E & HI).
  { change (Zlen (fst (@nil (Z * Z), @nil (bool * Z)))) with 0. lia. }
  exists s. split; [exact E|]. split; [exact (proj1 (proj2 HI))|]. intros h n. exact (reg_inv_count s _ h n HI).
Qed.
Print Assumptions C19_registry_partial.
Example C19_registry_case :
  let l := [ROpen 1 10; ROpen 2 10; ROpen 3 11; RClose 1; RClose 3; RClose 2; ROpen 4 10] in
  well_used ([], []) l /\ spec_run l = ([(4, 10)], [(true, 10); (true, 11); (false, 11); (false, 10); (true, 10)]).
Proof. split; [cbn; repeat split; discriminate|reflexivity]. Qed.
(** C19: after a failed open every later open and every later close of a healthy file blocks for ever. *)
Theorem C19_failed_open_locks_refuted : forall l s h n, reg_run reg0 l = Fine s -> lookup n (opened s) = None -> locked s = false ->
  exists s', reg_open false h n s = Raised s' /\ forall h2 n2 os, reg_open os h2 n2 s' = Blocked.
Proof. intros l s h n _ H HL. unfold reg_open. rewrite HL, H. eexists. split; [reflexivity|]. intros. reflexivity. Qed.
Print Assumptions C19_failed_open_locks_refuted.
(** C19: one user's failing flush and departure deletes the file under the other user. *)
Theorem C19_flush_failure_frees_refuted : exists s1 s2 s3,
  reg_run reg0 [ROpen 1 10; ROpen 2 10] = Fine s1 /\ reg_flush false 1 s1 = Fine s2 /\ reg_close 1 s2 = Fine s3 /\
  reg_flush true 2 s3 = Undefined /\ reg_close 2 s3 = Undefined.
Proof. do 3 eexists. split; [vm_compute; reflexivity|]. split; [vm_compute; reflexivity|]. split; [vm_compute; reflexivity|]. split; vm_compute; reflexivity. Qed.
Print Assumptions C19_flush_failure_frees_refuted.

Lemma wait_tenths t s : 100 <= t < 25600 -> wait_ms (block t s) = 100 * vtime (block t s).
Proof.
  intros Ht. unfold block. replace (t <? 100) with false by lia. unfold wait_ms. cbn [timeout_ms snooze_ms loops vtime].
  assert (wrap_s 64 t = t) as ->.
  { unfold wrap_s. change (2 ^ (64 - 1)) with 9223372036854775808. rewrite Z.mod_small by (change (2 ^ 64) with 18446744073709551616; lia). ifs; lia. }
  replace (t <? 100) with false by lia. now rewrite andb_false_r.
Qed.
(** C20: timeouts below 100 ms are rounded up by less than 5 ms, those up to 25.6 s down by less than 100 ms. *)
Theorem C20_short_timeouts : forall t s, 1 <= t < 100 -> t <= wait_ms (block t s) < t + 5.
Proof. exact wait_short. Qed.
Print Assumptions C20_short_timeouts.
Theorem C20_long_timeouts : forall t s, 100 <= t < 25600 ->
  t - 100 < wait_ms (block t s) <= t /\ exists tenths, wait_ms (block t s) = 100 * tenths.
Proof. intros t s H. split; [exact (wait_long t s H)|]. pose proof (wait_tenths t s H). eauto. Qed.
Print Assumptions C20_long_timeouts.
Example C20_cases : forall s, wait_ms (block 17 s) = 18 /\ wait_ms (block 99 s) = 100 /\ wait_ms (block 250 s) = 200.
Proof. intros. repeat split. Qed.

(** C82: 25.6 s makes the port non-blocking, and no timeout waits longer than 25.5 s. *)
Theorem C82_large_timeouts_refuted : forall s, wait_ms (block 25600 s) = 0 /\ wait_ms (block 60000 s) = 8800.
Proof. intros s. split; reflexivity. Qed.
Print Assumptions C82_large_timeouts_refuted.
Theorem C82_never_longer_refuted : forall t s, 100 <= t < 2 ^ 63 -> wait_ms (block t s) <= 25500.
Proof. exact wait_bounded. Qed.
Print Assumptions C82_never_longer_refuted.

(** C76: what is still buffered when the object is destroyed is lost. *)
Theorem C76_destruction_loses_bytes_refuted : forall debug,
  (exists l s, con_run (mkSink [] []) l = Ok s /\ destroy s <> written l) /\
  (exists l s, sf_run debug (mkSink [] []) l = Ok s /\ destroy s <> written l).
Proof.
  intros debug. split; exists [WN [65; 66]]; eexists.
  - split; [vm_compute; reflexivity|]. vm_compute. discriminate.
  - split; [destruct debug; vm_compute; reflexivity|]. vm_compute. discriminate.
Qed.
Print Assumptions C76_destruction_loses_bytes_refuted.
(** C76 (partial): flushed first, nothing is lost. *)
Theorem C76_flushed_destruction_partial : forall debug l,
  exists s, sf_run debug (mkSink [] []) (l ++ [WFlush]) = Ok s /\ destroy s = written l.
Proof. intros debug l. destruct (flush_hands_over debug l) as [H _]. exact H. Qed.
Print Assumptions C76_flushed_destruction_partial.

(** C77: flushing a shared file with nothing buffered fails. *)
Theorem C77_empty_flush_refuted : forall o,
  sf_flush false true (mkSink [] o) = Ok (mkSink [] o, false) /\ sf_flush true true (mkSink [] o) = Throw WriteError.
Proof. intros. split; reflexivity. Qed.
Print Assumptions C77_empty_flush_refuted.
(** C77 (partial): otherwise it succeeds. *)
Theorem C77_flush_succeeds_partial : forall debug b o, b <> [] -> sf_flush debug true (mkSink b o) = Ok (mkSink [] (o ++ b), true).
Proof. exact sf_flush_ok. Qed.
Print Assumptions C77_flush_succeeds_partial.
(** The empty buffer is reached by writing 4096 bytes. *)
Example C77_reached : exists s, sf_run false (mkSink [] []) [WN (repeat 65 (Z.to_nat 4096))] = Ok s /\ buf s = [].
Proof. eexists. split; [vm_compute; reflexivity|]. reflexivity. Qed.

(** C78: append mode keeps the old content and adds what is written. *)
Theorem C78_append_mode : forall l old, fcontent (fold_left of_write l (of_open Append old)) = old ++ concat l.
Proof. exact of_writes_append. Qed.
Print Assumptions C78_append_mode.
(** C83: a new file keeps the tail of a longer old one ... *)
Theorem C83_new_mode_keeps_tail_refuted : exists l old, fcontent (fold_left of_write l (of_open New old)) <> concat l.
Proof. exists [[65]], [66; 67]. vm_compute. discriminate. Qed.
Print Assumptions C83_new_mode_keeps_tail_refuted.
(** C83 (partial): ... and is otherwise exactly what was written. *)
Theorem C83_new_mode_partial : forall l old,
  fcontent (fold_left of_write l (of_open New old)) = concat l ++ skipn (length (concat l)) old /\
  (Zlen old <= Zlen (concat l) -> fcontent (fold_left of_write l (of_open New old)) = concat l).
Proof.
  intros l old. pose proof (of_writes_new l old) as H. split; [exact H|]. intros HL. rewrite H, skipn_all2 by (unfold Zlen in HL; lia). apply app_nil_r.
Qed.
Print Assumptions C83_new_mode_partial.

(** C79: every byte but 255 is delivered by console input. *)
Theorem C79_console_input_partial : forall debug ch, 0 <= ch < 255 -> icon_read debug ch = Ok (1, wrap_s 8 ch).
Proof. exact icon_read_ok. Qed.
Print Assumptions C79_console_input_partial.
Theorem C79_byte_255_refuted : forall debug, icon_read debug 255 = icon_read debug (-1) /\ icon_read true 255 = Throw ReadError.
Proof. intros debug. split; destruct debug; reflexivity. Qed.
Print Assumptions C79_byte_255_refuted.

(** C80: with a timeout of 1 to 99 ms, a read returns the first bytes that arrive at a poll, and 0 if none do. *)
Theorem C80_short_timeout_read : forall debug t s polls, 1 <= t < 100 -> (forall k, 0 <= polls k) ->
  (exists j, (j < Z.to_nat (loops (block t s)))%nat /\ 0 < polls j /\ (forall i, (i < j)%nat -> polls i = 0) /\
             ser_read1 debug (block t s) polls = Ok (polls j)) \/
  ((forall i, (i < Z.to_nat (loops (block t s)))%nat -> polls i = 0) /\ ser_read1 debug (block t s) polls = Ok 0).
Proof. exact ser_read_ok. Qed.
Print Assumptions C80_short_timeout_read.
(** C84: a timeout of zero makes reads return an indeterminate count. *)
Theorem C84_zero_timeout_refuted : forall debug s polls, ser_read1 debug (block 0 s) polls = UB.
Proof. intros. reflexivity. Qed.
Print Assumptions C84_zero_timeout_refuted.

(** C164: the results of writing.  A shared file's buffer holds fewer than 4096 bytes after any history, also one whose
    flushes fail; a write that leaves it below that succeeds, any other succeeds exactly if the file accepts the block,
    and a refused one is reported (and the buffered bytes are gone). *)
Definition sf_do (os : bool) (s : sink) (o : wop) : res (sink * Z) :=
  match o with
  | W1 c => sf_write1 false os s c
  | WN l => sf_write false os s l
  | WFlush => q <- sf_flush false os s ;; Ok (fst q, 0)
  end.
Fixpoint sf_hist (s : sink) (l : list (bool * wop)) : res (sink * list Z) :=
  match l with [] => Ok (s, []) | (os, o) :: r => p <- sf_do os s o ;; q <- sf_hist (fst p) r ;; Ok (fst q, snd p :: snd q) end.
Lemma sf_write1_result debug os s c : Zlen (buf s) < 4096 ->
  sf_write1 debug os s c = (if Zlen (buf s) + 1 <? 4096 then Ok (mkSink (buf s ++ [c]) (out s), 1)
                            else if os then Ok (mkSink [] (out s ++ buf s ++ [c]), 1)
                            else if debug then Throw WriteError else Ok (mkSink [] (out s), -1)).
Proof.
  intros H. pose proof (Zlen_nonneg (buf s)). unfold sf_write1. rewrite append1_ok by (try apply file_good; cbn; lia). cbn [bind fst snd].
  unfold full. cbn [cap file_kind]. rewrite Zlen_app. change (Zlen [c]) with 1.
  destruct (Zlen (buf s) + 1 =? 4096) eqn:E.
  - replace (Zlen (buf s) + 1 <? 4096) with false by lia. unfold sf_flush. cbn [buf out]. rewrite Zlen_app. change (Zlen [c]) with 1.
    replace (Zlen (buf s) + 1 =? 0) with false by lia. destruct os, debug; reflexivity.
  - replace (Zlen (buf s) + 1 <? 4096) with true by lia. reflexivity.
Qed.
Lemma sf_write_result debug os s data : Zlen (buf s) < 4096 ->
  if Zlen (buf s) + Zlen data <? 4096 then sf_write debug os s data = Ok (mkSink (buf s ++ data) (out s), Zlen data)
  else if os then exists s', sf_write debug os s data = Ok (s', Zlen data) /\ Zlen (buf s') < 4096 /\ out s' ++ buf s' = out s ++ buf s ++ data
  else sf_write debug os s data = if debug then Throw WriteError else Ok (mkSink [] (out s), -1).
Proof.
  intros H. pose proof (Zlen_nonneg (buf s)). destruct (Zlen (buf s) + Zlen data <? 4096) eqn:E.
  - unfold sf_write. destruct data as [|c data]; [cbn; rewrite app_nil_r; destruct s; reflexivity|].
    set (dd := c :: data) in *. change (length dd) with (S (length data)). unfold dd at 1. cbn [sf_loop]. fold dd.
    rewrite (append_ok file_kind) by (try apply file_good; cbn; lia). cbn [bind fst snd cap file_kind].
    rewrite Z.min_l by lia. rewrite firstn_all2 by (unfold Zlen; lia). unfold full. cbn [cap file_kind].
    rewrite Zlen_app. replace (Zlen (buf s) + Zlen dd =? 4096) with false by lia.
    rewrite skipn_all2 by (unfold Zlen; lia). destruct (length data); reflexivity.
  - destruct os.
    + destruct (sf_loop_ok debug (Zlen data) (length data) s data (out s ++ buf s)) as (s' & E1 & E2 & E3); [lia|split; auto|].
      exists s'. split; [exact E1|]. split; [exact E2|]. rewrite E3, app_assoc. reflexivity.
    + unfold sf_write. destruct data as [|c data]; [cbn in E; lia|].
      set (dd := c :: data) in *. change (length dd) with (S (length data)). unfold dd at 1. cbn [sf_loop]. fold dd.
      rewrite (append_ok file_kind) by (try apply file_good; cbn; lia). cbn [bind fst snd cap file_kind].
      rewrite Z.min_r by lia. unfold full. cbn [cap file_kind].
      assert (L : Zlen (buf s ++ firstn (Z.to_nat (4096 - Zlen (buf s))) dd) = 4096).
      { rewrite Zlen_app. unfold Zlen in *. rewrite firstn_length. lia. }
      rewrite L. cbn [Z.eqb Pos.eqb]. unfold sf_flush. cbn [andb]. destruct debug; reflexivity.
Qed.
Lemma sf_do_small os s o : Zlen (buf s) < 4096 -> exists s' n, sf_do os s o = Ok (s', n) /\ Zlen (buf s') < 4096.
Proof.
  intros H. pose proof (Zlen_nonneg (buf s)). destruct o as [c|data|]; cbn [sf_do].
  - rewrite sf_write1_result by exact H. destruct (Zlen (buf s) + 1 <? 4096) eqn:E; [|destruct os];
      do 2 eexists; (split; [reflexivity|]); cbn [buf]; rewrite ?Zlen_app; change (Zlen [c]) with 1; change (Zlen (@nil Z)) with 0; lia.
  - pose proof (sf_write_result false os s data H) as K. destruct (Zlen (buf s) + Zlen data <? 4096) eqn:E.
    + rewrite K. do 2 eexists. split; [reflexivity|]. cbn [buf]. rewrite Zlen_app. lia.
    + destruct os; [destruct K as (s' & K & L & _); rewrite K; eauto|]. rewrite K. do 2 eexists. split; [reflexivity|]. reflexivity.
  - unfold sf_flush. destruct (os && negb (Zlen (buf s) =? 0)); cbn [bind]; do 2 eexists; (split; [reflexivity|]); reflexivity.
Qed.
Theorem C164_histories_stay_bounded : forall l, exists s rs, sf_hist (mkSink [] []) l = Ok (s, rs) /\ Zlen (buf s) < 4096.
Proof.
  intros l. assert (K : forall s, Zlen (buf s) < 4096 -> exists s' rs, sf_hist s l = Ok (s', rs) /\ Zlen (buf s') < 4096).
  { induction l as [|[os o] l IH]; intros s H; cbn [sf_hist]; [eauto|].
    destruct (sf_do_small os s o H) as (s' & n & E & H'). rewrite E. cbn [bind fst snd].
    destruct (IH s' H') as (s2 & rs & E2 & H2). rewrite E2. cbn [bind fst snd]. eauto. }
  apply K. reflexivity.
Qed.
Print Assumptions C164_histories_stay_bounded.
Theorem C164_write_results : forall debug os s, Zlen (buf s) < 4096 ->
  (forall c, sf_write1 debug os s c = (if Zlen (buf s) + 1 <? 4096 then Ok (mkSink (buf s ++ [c]) (out s), 1)
                            else if os then Ok (mkSink [] (out s ++ buf s ++ [c]), 1)
                            else if debug then Throw WriteError else Ok (mkSink [] (out s), -1))) /\
  (forall data, if Zlen (buf s) + Zlen data <? 4096 then sf_write debug os s data = Ok (mkSink (buf s ++ data) (out s), Zlen data)
    else if os then exists s', sf_write debug os s data = Ok (s', Zlen data) /\ Zlen (buf s') < 4096 /\ out s' ++ buf s' = out s ++ buf s ++ data
    else sf_write debug os s data = if debug then Throw WriteError else Ok (mkSink [] (out s), -1)).
Proof. intros debug os s H. split; intros; [apply sf_write1_result|apply sf_write_result]; exact H. Qed.
Print Assumptions C164_write_results.
(** Single characters written to a console are all accepted. *)
Theorem C164_console_counts : forall l c, exists s s', con_run (mkSink [] []) l = Ok s /\ con_write1 s c = Ok (s', 1).
Proof.
  intros l c. destruct (con_safe l (mkSink [] [])) as (s & H & L); [reflexivity|]. exists s.
  unfold con_write1. rewrite append1_ok by (try apply console_good; cbn; lia). cbn [bind fst snd].
  assert (M : Zlen (buf s ++ [c]) <= 4095) by (rewrite Zlen_app; change (Zlen [c]) with 1; lia).
  destruct (full console_kind (buf s ++ [c])); [|eexists; split; [exact H|reflexivity]].
  unfold con_flush. cbn [buf room console_kind]. replace (Zlen (buf s ++ [c]) <? 4096) with true by lia. cbn [bind]. eexists. split; [exact H|reflexivity].
Qed.
Print Assumptions C164_console_counts.
Example C164_case : exists s rs, sf_hist (mkSink [] []) [(true, WN (repeat 7 (Z.to_nat 4095))); (false, W1 8); (true, W1 9)] = Ok (s, rs) /\
  rs = [4095; -1; 1] /\ buf s = [9] /\ out s = [].
Proof. do 2 eexists. split; [vm_compute; reflexivity|]. repeat split; reflexivity. Qed.

(** C81 (partial): exactly the histories without NUL bytes come out as they were written. *)
Lemma until_nul_clean l : ~ In 0 (until_nul l).
Proof. induction l as [|c l IH]; cbn; [tauto|]. destruct (c =? 0) eqn:E; cbn; [tauto|]. intros [F|F]; [lia|tauto]. Qed.
Lemma con_flush_clean s s' : con_flush s = Ok s' -> ~ In 0 (out s) -> ~ In 0 (out s') /\ buf s' = [].
Proof.
  unfold con_flush. destruct (_ <? _); [|discriminate]. intros [= <-] H. cbn. split; [|reflexivity]. intros F.
  apply in_app_or in F as [F|F]; [tauto|]. exact (until_nul_clean _ F).
Qed.
Lemma con_op_clean s o s' : con_op s o = Ok s' -> ~ In 0 (out s) -> ~ In 0 (out s').
Proof.
  assert (L : forall fuel s data s', con_loop fuel s data = Ok s' -> ~ In 0 (out s) -> ~ In 0 (out s')).
  { induction fuel as [|f IH]; intros s0 data s1 H; destruct data as [|c data]; cbn [con_loop] in H; try (injection H as <-; tauto); try discriminate.
    destruct (append console_kind (buf s0) (c :: data)) as [[b n]| |]; cbn [bind fst snd] in H; try discriminate.
    intros H0. destruct (full console_kind b).
    - destruct (con_flush (mkSink b (out s0))) as [q| |] eqn:E; cbn [bind] in H; try discriminate.
      apply (IH _ _ _ H). exact (proj1 (con_flush_clean _ _ E H0)).
    - cbn [bind] in H. apply (IH _ _ _ H). exact H0. }
  destruct o as [c|l|]; cbn [con_op]; intros H H0.
  - unfold con_write1 in H. destruct (append1 console_kind (buf s) c) as [[b n]| |]; cbn [bind fst snd] in H; try discriminate.
    destruct (full console_kind b).
    + destruct (con_flush (mkSink b (out s))) as [q| |] eqn:E; cbn [bind fst] in H; try discriminate. injection H as <-.
      exact (proj1 (con_flush_clean _ _ E H0)).
    + cbn [bind fst] in H. injection H as <-. exact H0.
  - exact (L _ _ _ _ H H0).
  - exact (proj1 (con_flush_clean _ _ H H0)).
Qed.
Lemma con_run_clean : forall l s s', con_run s l = Ok s' -> ~ In 0 (out s) -> ~ In 0 (out s').
Proof.
  induction l as [|o l IH]; intros s s' H H0; cbn [con_run] in H; [injection H as <-; exact H0|].
  destruct (con_op s o) as [q| |] eqn:E; cbn [bind] in H; try discriminate. exact (IH _ _ H (con_op_clean _ _ _ E H0)).
Qed.
Theorem C81_console_partial : forall l,
  exists s, con_run (mkSink [] []) (l ++ [WFlush]) = Ok s /\ (out s = written l <-> ~ In 0 (written l)).
Proof.
  intros l. destruct (con_safe (l ++ [WFlush]) (mkSink [] [])) as (s & H & _); [reflexivity|]. exists s. split; [exact H|]. split.
  - intros E. rewrite <- E. apply (con_run_clean _ _ _ H). cbn. tauto.
  - intros Hn. destruct (proj2 (flush_hands_over false l) Hn) as (s' & H' & E). rewrite H in H'. injection H' as <-. exact E.
Qed.
Print Assumptions C81_console_partial.
Lemma wrap63 x : 0 <= x < 2 ^ 63 -> wrap_s 64 x = x.
Proof.
  intros H. unfold wrap_s. change (2 ^ 64) with 18446744073709551616. change (2 ^ (64 - 1)) with 9223372036854775808.
  rewrite Z.mod_small by lia. replace (x <? 9223372036854775808) with true by lia. reflexivity.
Qed.
(** C82 (partial): the wait that is set up, for every timeout of at least 100 ms; right exactly below 25.6 s. *)
Theorem C82_timeouts_partial : forall t s, 100 <= t < 2 ^ 63 ->
  wait_ms (block t s) = 100 * ((t / 100) mod 256) /\
  (wait_ms (block t s) = 100 * (t / 100) <-> t < 25600).
Proof.
  intros t s H. assert (E : wait_ms (block t s) = 100 * ((t / 100) mod 256)).
  { unfold block, wait_ms. replace (t <? 100) with false by lia. cbn [timeout_ms vtime].
    rewrite wrap63 by lia. replace (t <? 100) with false by lia. rewrite Bool.andb_false_r. reflexivity. }
  split; [exact E|]. rewrite E. pose proof (Z.div_mod t 100 ltac:(lia)). pose proof (Z.mod_pos_bound t 100 ltac:(lia)). split; intros F.
  - pose proof (Z.mod_pos_bound (t / 100) 256 ltac:(lia)). lia.
  - rewrite Z.mod_small by lia. reflexivity.
Qed.
Print Assumptions C82_timeouts_partial.
(** C84 (partial): zero is the only timeout for which the count is indeterminate. *)
Theorem C84_timeouts_partial : forall debug t s polls, 0 <= t < 2 ^ 63 ->
  (ser_read1 debug (block t s) polls = UB <-> t = 0).
Proof.
  intros debug t s polls H. split; [|intros ->; reflexivity]. intros F. destruct (Z.eq_dec t 0) as [E|E]; [exact E|exfalso].
  assert (P : exists n, (if negb (timeout_ms (block t s) =? -1) && (timeout_ms (block t s) <? 100) then poll (Z.to_nat (loops (block t s))) 0 polls None else Some (polls O)) = Some n).
  { destruct (Z_lt_dec t 100) as [L|L].
    - destruct (block_short t s ltac:(lia)) as [H1 H2]. rewrite H1. replace (t =? -1) with false by lia. replace (t <? 100) with true by lia. cbn [negb andb].
      destruct (poll_ok (Z.to_nat (loops (block t s))) 0 polls None ltac:(lia)) as [(j & _ & _ & _ & P)|[_ P]]; rewrite P; eauto.
    - unfold block. replace (t <? 100) with false by lia. cbn [timeout_ms]. rewrite wrap63 by lia. replace (t <? 100) with false by lia.
      rewrite Bool.andb_false_r. eauto. }
  destruct P as (n & P). unfold ser_read1 in F. rewrite P in F. destruct (n <? 0), debug; discriminate.
Qed.
Print Assumptions C84_timeouts_partial.
