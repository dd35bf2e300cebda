(** Properties of log streams that share a file: what they write, how they mix, what a flush brings out. *)
From Coq Require Import List ZArith Lia Bool.
From Verif Require Import Base DevModel DevProofs TimeModel LogModel LogProofs.
Import ListNotations.
Open Scope Z_scope.

Definition bytes_from (i : nat) (l : list (nat * Z)) : list Z := map snd (filter (fun p => Nat.eqb (fst p) i) l).
Definition messages_from (i : nat) (l : list (nat * list Z)) : list (list Z) := map snd (filter (fun p => Nat.eqb (fst p) i) l).

(** * C194 The text of a log *)

(** However many streams write and however they are scheduled, nothing throws, and each stream's part of the file followed by
    what it still holds is the text its calls asked for, in order. *)
Theorem C194_text : forall debug old progs sched, (forall i, macros_only (progs i)) ->
  exists s l, run debug (start cfg_new old progs) sched = Ok s /\ s_file s = old ++ map snd l /\
    forall i, exists past, progs i = rev past ++ t_prog (s_thr s i) /\
      exists held, bytes_from i l ++ held = told past /\
        (t_todo (s_thr s i) = [] -> held = t_buf (s_thr s i) /\ Zlen held < 4096).
Proof.
  intros debug old progs sched MO. destruct (inv_run debug old progs MO sched _ _ (inv_start old progs)) as (s & l & R & F & I).
  exists s, l. split; [exact R|]. split; [exact F|]. intros i. destruct (I i) as (past & P & _ & L & T & _). exists past. split; [exact P|].
  eexists. split; [exact T|]. intros ->. cbn. rewrite app_nil_r. auto.
Qed.
Print Assumptions C194_text.

(** A block write, as streaming a string does, is the write of its bytes. *)
Theorem C194_block_is_bytes : forall debug s data, Zlen (buf s) < 4096 ->
  sf_write debug true s data = (s' <- write_bytes debug s data ;; Ok (s', Zlen data)).
Proof. exact block_is_bytes. Qed.
Print Assumptions C194_block_is_bytes.

(** Switching a mode on again does not change its header. *)
Theorem C194_latest_header_refuted : exists prog s,
  prog = [EnableMode 1 [65]; EnableMode 1 [66]; DisableStamp; LOG 1 (TS 0 0) [72]; FLUSH] /\
  run true (start cfg_new [] (fun i => if Nat.eqb i 0 then prog else [])) (repeat 0%nat 30) = Ok s /\
  t_prog (s_thr s 0%nat) = [] /\ t_todo (s_thr s 0%nat) = [] /\
  s_file s = [91; 65; 93; 32; 58; 32; 72] /\ s_file s <> [91; 66; 93; 32; 58; 32; 72].
Proof. eexists; eexists. split; [reflexivity|]. split; [vm_compute; reflexivity|]. vm_compute. repeat split. discriminate. Qed.
Print Assumptions C194_latest_header_refuted.

(** A stream made by the default constructor reads flags nobody has set. *)
Theorem C194_default_refuted : exists prog sched,
  macros_only prog /\ run true (start cfg_default [] (fun _ => prog)) sched = UB.
Proof. exists [EnableMode 1 [65]; LOG 1 (TS 0 0) [72]], [0%nat; 0%nat]. split; [repeat constructor|vm_compute; reflexivity]. Qed.
Print Assumptions C194_default_refuted.
(** With both flags set by hand it behaves like one made with a file name. *)
Theorem C194_default_with_flags : forall debug old p,
  exists s, run debug (start cfg_default old (fun i => if Nat.eqb i 0 then EnableHeader :: EnableStamp :: p else [])) [0%nat; 0%nat] = Ok s /\
    s_file s = old /\ s_thr s 0%nat = s_thr (start cfg_new old (fun i => if Nat.eqb i 0 then p else [])) 0%nat.
Proof. intros. eexists. split; [reflexivity|]. split; reflexivity. Qed.
Print Assumptions C194_default_with_flags.
(** Calling log() on a mode that is off writes the message and, with headers on, switches the mode on. *)
Theorem C194_direct_log_refuted : exists c m c' todo,
  is_mode_enabled c m = false /\ expand c (Direct m (TS 0 0) [72]) = Ok (c', todo) /\ is_mode_enabled c' m = true /\ todo <> [].
Proof. exists cfg_new, 1. eexists; eexists. split; [reflexivity|]. split; [vm_compute; reflexivity|]. split; [reflexivity|discriminate]. Qed.
Print Assumptions C194_direct_log_refuted.
(** A call that is off says nothing, and the text of one that is on. *)
Example C194_message : told [LOG 2 (TS 0 0) [74]; LOG 1 (TS 3 5) [72]; DisableHeader; EnableMode 1 [65]]
  = [51; 46; 48; 48; 48; 48; 48; 48; 48; 48; 53; 32; 58; 32; 72].
Proof. reflexivity. Qed.

(** * C195 Streams that share a file *)

(** If every LOG is flushed at once and no message is as long as the buffer, the file is made of whole messages: each
    stream's messages stand in it entire and in order, whatever the schedule. *)
Theorem C195_whole_messages_partial : forall debug old progs sched, (forall i, tidy [] (progs i)) ->
  exists s l, run debug (start cfg_new old progs) sched = Ok s /\ s_file s = old ++ concat (map snd l) /\
    forall i, exists past written pending, progs i = rev past ++ t_prog (s_thr s i) /\
      messages_from i l = written /\ messages past = written ++ pending /\ (length pending <= 1)%nat /\
      (t_todo (s_thr s i) = [] -> t_prog (s_thr s i) = [] -> pending = []).
Proof.
  intros debug old progs sched TD. destruct (neat_run debug old progs sched _ _ (neat_start old progs TD)) as (s & l & R & F & N).
  exists s, l. split; [exact R|]. split; [exact F|]. intros i. destruct (N i) as (past & P & _ & H).
  exists past. change messages_from with whole_of.
  destruct H as [(T & B & _ & W)|[(k & p & tl & r & EP & EQ & T & B & NE & _ & _ & _ & W)|(k & p & EP & T & B & NE & _ & W)]].
  - exists (whole_of i l), []. rewrite W, app_nil_r. repeat split; auto.
  - exists (whole_of i l), [said p k]. subst past. rewrite W. cbn [messages]. destruct (said p k) as [|x q] eqn:E; [contradiction|].
    repeat split; auto. rewrite EQ. discriminate.
  - exists (whole_of i l), [said p k]. subst past. rewrite W. cbn [messages said]. rewrite app_nil_r. destruct (said p k) as [|x q] eqn:E; [contradiction|].
    repeat split; auto. rewrite T. discriminate.
Qed.
Print Assumptions C195_whole_messages_partial.
Example C195_two_streams : exists s,
  let prog c := [EnableMode 1 []; DisableStamp; LOG 1 (TS 0 0) [c; c]; FLUSH; LOG 1 (TS 0 0) [c]; FLUSH] in
  tidy [] (prog 65) /\
  run true (start cfg_new [] (fun i => match i with 0%nat => prog 65 | 1%nat => prog 66 | _ => [] end)) (concat (repeat [0%nat; 1%nat] 26)) = Ok s /\
  s_file s = [91;93;32;58;32;65;65; 91;93;32;58;32;66;66; 91;93;32;58;32;65; 91;93;32;58;32;66].
Proof. eexists. split; [repeat (constructor; auto; try reflexivity)|]. split; [vm_compute; reflexivity|]. vm_compute. reflexivity. Qed.

(** Without those conditions a message can be torn apart by another stream's. *)
Definition long_prog : list call := [EnableMode 1 []; DisableStamp; DisableHeader; LOG 1 (TS 0 0) (repeat 65 (Z.to_nat 4100)); FLUSH].
Definition short_prog : list call := [EnableMode 1 []; DisableStamp; DisableHeader; LOG 1 (TS 0 0) [66; 66]; FLUSH].
Theorem C195_whole_messages_refuted : exists progs sched s, (forall i, macros_only (progs i)) /\
  run true (start cfg_new [] progs) sched = Ok s /\
  (forall i, t_prog (s_thr s i) = [] /\ t_todo (s_thr s i) = [] /\ t_buf (s_thr s i) = []) /\
  messages (rev (progs 0%nat)) = [repeat 65 (Z.to_nat 4100)] /\ messages (rev (progs 1%nat)) = [[66; 66]] /\ (forall i, (2 <= i)%nat -> progs i = []) /\
  s_file s = repeat 65 (Z.to_nat 4096) ++ [66; 66] ++ repeat 65 4.
Proof.
  exists (fun i => match i with 0%nat => long_prog | 1%nat => short_prog | _ => [] end),
    (repeat 0%nat (Z.to_nat 4101) ++ repeat 1%nat 8 ++ repeat 0%nat 8).
  set (progs := fun i => match i with 0%nat => long_prog | 1%nat => short_prog | _ => [] end).
  set (sched := repeat 0%nat (Z.to_nat 4101) ++ repeat 1%nat 8 ++ repeat 0%nat 8).
  assert (O : match run true (start cfg_new [] progs) sched with
              | Ok s => Some (s_file s, (t_prog (s_thr s 0%nat), t_todo (s_thr s 0%nat), t_buf (s_thr s 0%nat)),
                                        (t_prog (s_thr s 1%nat), t_todo (s_thr s 1%nat), t_buf (s_thr s 1%nat)))
              | _ => None end = Some (repeat 65 (Z.to_nat 4096) ++ [66; 66] ++ repeat 65 4, ([], [], []), ([], [], []))) by (vm_compute; reflexivity).
  destruct (run true (start cfg_new [] progs) sched) as [s|e|] eqn:E; [|discriminate|discriminate]. exists s.
  assert (U : forall i, (2 <= i)%nat -> s_thr s i = s_thr (start cfg_new [] progs) i).
  { intros i Hi. apply (run_untouched true i sched _ _ E). unfold sched. rewrite !in_app_iff. intros [H|[H|H]]; apply repeat_spec in H; lia. }
  injection O as O1 O2 O3 O4 O5 O6 O7. split; [intros [|[|i]]; repeat constructor|]. split; [reflexivity|].
  split; [intros [|[|i]]; auto; rewrite U by lia; repeat split|]. split; [vm_compute; reflexivity|]. split; [vm_compute; reflexivity|].
  split; [intros [|[|i]] H; [lia|lia|reflexivity]|]. exact O1.
Qed.
Print Assumptions C195_whole_messages_refuted.

(** * C196 FLUSH *)

(** When FLUSH has been carried out on a stream with a mode on, everything the stream was told is in the file. *)
Theorem C196_flush_partial : forall debug old progs sched, (forall i, macros_only (progs i)) ->
  exists s l, run debug (start cfg_new old progs) sched = Ok s /\ s_file s = old ++ map snd l /\
    forall i, exists past, progs i = rev past ++ t_prog (s_thr s i) /\
      forall p, past = FLUSH :: p -> t_todo (s_thr s i) = [] -> (exists m, switched_on p m <> None) -> bytes_from i l = told past.
Proof.
  intros debug old progs sched MO. destruct (inv_run debug old progs MO sched _ _ (inv_start old progs)) as (s & l & R & F & I).
  exists s, l. split; [exact R|]. split; [exact F|]. intros i. destruct (I i) as (past & P & _ & _ & T & FL). exists past. split; [exact P|].
  intros p -> E SO. destruct (FL SO) as [D|[_ B]]; [congruence|]. rewrite <- T, E, B. cbn. now rewrite app_nil_r.
Qed.
Print Assumptions C196_flush_partial.
(** With every mode switched off, FLUSH leaves the text behind. *)
Theorem C196_flush_refuted : exists prog s, macros_only prog /\
  run true (start cfg_new [] (fun i => if Nat.eqb i 0 then prog else [])) (repeat 0%nat 30) = Ok s /\
  (exists k l, prog = l ++ [k] /\ k = FLUSH) /\ t_prog (s_thr s 0%nat) = [] /\ t_todo (s_thr s 0%nat) = [] /\
  told (rev prog) <> [] /\ s_file s = [].
Proof.
  exists [EnableMode 1 [65]; LOG 1 (TS 0 0) [72]; DisableMode 1; FLUSH]. eexists. split; [repeat constructor|].
  split; [vm_compute; reflexivity|]. split; [eexists; exists [EnableMode 1 [65]; LOG 1 (TS 0 0) [72]; DisableMode 1]; split; reflexivity|].
  vm_compute. repeat split. discriminate.
Qed.
Print Assumptions C196_flush_refuted.
