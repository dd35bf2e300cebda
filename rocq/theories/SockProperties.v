(** Descriptor handling of sockets, serial ports and output files; the data path of sockets. *)
From Verif Require Import Base SockModel SockProofs.
Open Scope Z_scope.

(** * C171: what a device opened does not outlive it *)
(** For socket clients, whatever is called in whatever order and however the system calls turn out: the process
    holds a descriptor of the client only while the client exists and reports itself open, and then only one. *)
Theorem C171_client_no_leak : forall b es p id fd, id <> 0 -> Forall (client_only id) es -> run b es proc0 = Ok p ->
  In (fd, id) (tab p) ->
  (exists o, get p id = Some o /\ reports_open o = true) /\ forall fd', In (fd', id) (tab p) -> fd' = fd.
Proof.
  intros b es p id fd Hz C R I.
  pose proof (run_kept b id es Hz proc0 p (proj2 good0) (kept0 id) (client_only_keeps b id es C proc0) R) as K.
  destruct (K fd I) as (o & G & H). split; [exists o; split; [exact G | apply (holds_reports o fd H)]|].
  intros fd' I'. destruct (K fd' I') as (o' & G' & H'). congruence.
Qed.
Print Assumptions C171_client_no_leak.
(** For every kind of device, when none of the calls listed in [loses] happens to it. *)
Theorem C171_no_leak_partial : forall b es p id fd, id <> 0 -> keeps_track b id es proc0 -> run b es proc0 = Ok p ->
  In (fd, id) (tab p) ->
  (exists o, get p id = Some o /\ reports_open o = true) /\ forall fd', In (fd', id) (tab p) -> fd' = fd.
Proof.
  intros b es p id fd Hz C R I.
  pose proof (run_kept b id es Hz proc0 p (proj2 good0) (kept0 id) C R) as K.
  destruct (K fd I) as (o & G & H). split; [exists o; split; [exact G | apply (holds_reports o fd H)]|].
  intros fd' I'. destruct (K fd' I') as (o' & G' & H'). congruence.
Qed.
Print Assumptions C171_no_leak_partial.
(** Descriptors of object 1 still open. *)
Definition still_open (p : proc) : nat := length (filter (fun q => snd q =? 1) (tab p)).
(** A server leaves behind one descriptor per client it accepted. *)
Theorem C171_server_refuted : forall b k, exists p,
  run b ([NewServer 1 Indeterminate; OpenServer 1 SBound; Listen 1 true] ++ repeat (Listen 1 true) k ++ [Destroy 1]) proc0 = Ok p /\
  get p 1 = None /\ still_open p = S k.
Proof.
  intros b k. eexists. rewrite run_app.
  change (run b [NewServer 1 Indeterminate; OpenServer 1 SBound; Listen 1 true] proc0) with (Ok (listening 1)). cbn [bind].
  rewrite run_app, (run_repeat b _ listening (listen_step b)). cbn [bind Nat.add]. split; [reflexivity|]. split; [reflexivity|].
  unfold still_open. cbn [tab gone sys_close fst]. apply (stack_bottom (S k)).
Qed.
Print Assumptions C171_server_refuted.
(** A serial port leaves behind one descriptor per attempt that failed after the device file was opened. *)
Theorem C171_serial_refuted : forall b os k, os = BadBaud \/ os = Locked \/ os = NoSpeed -> exists p,
  run b ([NewPort 1 Zeroed; OpenPort 1 os true] ++ repeat (OpenPort 1 os true) k ++ [Destroy 1]) proc0 = Ok p /\
  get p 1 = None /\ still_open p = S k.
Proof.
  intros b os k H. assert (L : late os = true) by (destruct H as [-> | [-> | ->]]; reflexivity).
  assert (E0 : run b [NewPort 1 Zeroed; OpenPort 1 os true] proc0 = Ok (failing 0)) by (destruct H as [-> | [-> | ->]]; reflexivity).
  eexists. rewrite run_app, E0. cbn [bind].
  rewrite run_app, (run_repeat b _ failing (fun k => fail_step b os true k L)). cbn [bind Nat.add]. split; [reflexivity|]. split; [reflexivity|].
  unfold still_open. cbn [tab gone fst]. apply (stack_count (S k)).
Qed.
Print Assumptions C171_serial_refuted.
(** An output file re-opened while open leaves the earlier files open. *)
Theorem C171_file_refuted : forall b k, exists p,
  run b ([NewFile 1; OpenFile 1 FOpened] ++ repeat (OpenFile 1 FOpened) k ++ [Destroy 1]) proc0 = Ok p /\
  get p 1 = None /\ still_open p = k.
Proof.
  intros b k. eexists. rewrite run_app.
  change (run b [NewFile 1; OpenFile 1 FOpened] proc0) with (Ok (reopening 0)). cbn [bind].
  rewrite run_app, (run_repeat b _ reopening (reopen_step b)). cbn [bind Nat.add]. split; [reflexivity|]. split; [reflexivity|].
  unfold still_open. cbn [tab gone sys_close fst reopening]. rewrite stack_top. apply stack_count.
Qed.
Print Assumptions C171_file_refuted.
(** The hypotheses are met: a client that connects, loses its peer, reconnects and is destroyed; files too. *)
Example C171_client_case : exists p, run Release
  [NewClient 1 Indeterminate; NewFile 2; OpenFile 2 FOpened; OpenClient 1 NoHost; OpenClient 1 Connected; HangUp 1 false; OpenClient 1 Connected] proc0 = Ok p
  /\ In (1, 1) (tab p) /\ In (0, 2) (tab p).
Proof. eexists. split; [vm_compute; reflexivity|]. vm_compute. auto. Qed.
Example C171_tracked_case : keeps_track Release 1
  [NewServer 1 Indeterminate; OpenServer 1 SNoBind; OpenServer 1 SBound; Listen 1 false; Destroy 1] proc0.
Proof.
  repeat (split; [cbn; intuition discriminate | let q := fresh in let H := fresh in intros q H; vm_compute in H; injection H as <-]). exact I.
Qed.

(** * C172: a device closes only what it opened *)
(** The history closes a descriptor only on behalf of the object that obtained it. *)
Definition closes_own (p : proc) : Prop := forall id w, In (id, w) (closes p) -> w = Some id.
(** Holds when sockets are closed and destroyed only while open() is true. *)
Theorem C172_own_partial : forall b es p, mindfully b es proc0 -> run b es proc0 = Ok p ->
  closes_own p /\ (forall id o fd, get p id = Some o -> holds o = Some fd -> owner (tab p) fd = Some id).
Proof.
  intros b es p M R. destruct (run_good b es proc0 p (proj1 good0) (proj2 good0) M R) as [[T C] _]. split; [exact C | exact T].
Qed.
Print Assumptions C172_own_partial.
(** A client whose peer hung up, when destroyed, closes the connection another client opened meanwhile; the other
    client still reports itself open. *)
Theorem C172_foreign_close_refuted : forall b, exists p o,
  run b [NewClient 1 Indeterminate; OpenClient 1 Connected; HangUp 1 false;
         NewClient 2 Indeterminate; OpenClient 2 Connected; Destroy 1] proc0 = Ok p /\
  In (1, Some 2) (closes p) /\ get p 2 = Some o /\ reports_open o = true /\ forall fd, ~ In (fd, 2) (tab p).
Proof.
  intros b. eexists. eexists. split; [vm_compute; reflexivity|]. split; [cbn; auto|]. split; [vm_compute; reflexivity|].
  split; [reflexivity | intros fd []].
Qed.
Print Assumptions C172_foreign_close_refuted.
(** So does one that failed to connect, one closed by hand, and a server. *)
Theorem C172_foreign_file_refuted : forall b e, In e [OpenClient 1 NoHost; OpenClient 1 NoConnect] -> exists p,
  run b [NewClient 1 Indeterminate; e; OtherOpen; Destroy 1] proc0 = Ok p /\ In (1, Some 0) (closes p).
Proof. intros b e [<- | [<- | []]]; eexists; (split; [vm_compute; reflexivity|]); vm_compute; auto. Qed.
Print Assumptions C172_foreign_file_refuted.
Theorem C172_server_refuted : forall b, exists p,
  run b [NewServer 1 Indeterminate; OpenServer 1 SBound; Close 1 true; OtherOpen; Destroy 1] proc0 = Ok p /\ In (1, Some 0) (closes p).
Proof. intros b. eexists. split; [vm_compute; reflexivity|]. vm_compute. auto. Qed.
Print Assumptions C172_server_refuted.
(** A socket that was never opened closes whatever number its storage happens to hold. *)
Theorem C172_unopened_refuted : forall b,
  run b [NewClient 1 Indeterminate; Destroy 1] proc0 = UB /\ run b [NewServer 1 Indeterminate; Destroy 1] proc0 = UB.
Proof. intros b. split; reflexivity. Qed.
Print Assumptions C172_unopened_refuted.
(** The condition is exact for clients: closing or destroying one that is not open never closes a descriptor of its own. *)
Theorem C172_stale_client_refuted : forall b es p id c p' c', id <> 0 -> Forall (client_only id) es -> run b es proc0 = Ok p ->
  get p id = Some (Client c) -> c_open c = false -> client_close id p c = Ok (p', c') ->
  exists w, closes p' = closes p ++ [(id, w)] /\ w <> Some id.
Proof.
  intros b es p id c p' c' Hz C R G O E.
  pose proof (run_kept b id es Hz proc0 p (proj2 good0) (kept0 id) (client_only_keeps b id es C proc0) R) as K.
  unfold client_close in E. destruct (c_fd c) as [fd|]; [|discriminate]. injection E as <- <-.
  eexists. split; [reflexivity|]. intros W. apply owner_In in W. destruct (K fd W) as (o & G' & H).
  rewrite G in G'. injection G' as <-. cbn in H. rewrite O in H. discriminate.
Qed.
Print Assumptions C172_stale_client_refuted.
Definition busy_day : list event :=
  [NewClient 1 Indeterminate; OpenClient 1 NoConnect; OpenClient 1 Connected; MakeServer 2 Indeterminate SBound; Listen 2 true;
   NewPort 3 Zeroed; OpenPort 3 PortUp true; OpenPort 3 PortUp true; MakeFile 4 FOpened; Close 4 true; HangUp 1 true;
   OpenClient 1 Connected; Destroy 1; Destroy 2; Destroy 3; Destroy 4].
Example C172_case : mindfully Release busy_day proc0 /\ exists p, run Release busy_day proc0 = Ok p /\ length (closes p) = 7%nat.
Proof.
  split; [|eexists; split; [vm_compute; reflexivity | vm_compute; reflexivity]].
  repeat (split; [vm_compute; auto | let q := fresh in let H := fresh in intros q H; vm_compute in H; injection H as <-]). exact I.
Qed.

(** * C173: after open(...), open() tells whether it succeeded *)
Theorem C173_client_status : forall os id p c p' c' ok, client_open os id p c = Ok (p', c', ok) -> reports_open (Client c') = ok.
Proof.
  intros os id p c p' c' ok. unfold client_open. destruct (if c_open c then _ else _) as [[p1 c1]| |] eqn:E; [|discriminate|discriminate].
  assert (O1 : c_open c1 = false).
  { destruct (c_open c) eqn:O; [|injection E as <- <-; exact O]. unfold client_close in E.
    destruct (c_fd c); [|discriminate]. injection E as <- <-. reflexivity. }
  cbn [bind]. destruct os; intros H; injection H as <- <- <-; cbn; auto.
Qed.
Print Assumptions C173_client_status.
Theorem C173_server_status_partial : forall os id p s p' s' ok, os <> SNoBind -> server_open os id p s = Ok (p', s', ok) -> reports_open (Server s') = ok.
Proof.
  intros os id p c p' c' ok N. unfold server_open. destruct (if s_open c then _ else _) as [[p1 c1]| |] eqn:E; [|discriminate|discriminate].
  assert (O1 : s_open c1 = false).
  { destruct (s_open c) eqn:O; [|injection E as <- <-; exact O]. unfold server_close in E.
    destruct (s_fd c); [|discriminate]. injection E as <- <-. reflexivity. }
  cbn [bind]. destruct os; try congruence; intros H; injection H as <- <- <-; cbn; auto.
Qed.
Print Assumptions C173_server_status_partial.
(** A server whose port could not be bound reports itself open. *)
Theorem C173_server_refuted : forall id p s, s_open s = false -> exists p' s',
  server_open SNoBind id p s = Ok (p', s', false) /\ reports_open (Server s') = true.
Proof. intros id p s O. unfold server_open. rewrite O. cbn. eexists _, _. split; reflexivity. Qed.
Print Assumptions C173_server_refuted.
Theorem C173_serial_status_partial : forall b os th id p s p' s' ok, (os = BadStopBits -> throws b = false) ->
  port_open b os th id p s = Ok (p', s', ok) -> reports_open (Port s') = ok.
Proof.
  intros b os th id p s p' s' ok N. unfold port_open. destruct os.
  { rewrite (N eq_refl). intros H; injection H as <- <- <-. reflexivity. }
  all: destruct (port_query th id p s) as [[[p1 s1] iso]| |]; [|discriminate|discriminate]; cbn [bind];
    destruct (if iso then _ else _) as [[p2 s2]| |]; [|discriminate|discriminate]; cbn [bind].
  1-4: intros H; injection H as <- <- <-; reflexivity.
  unfold sys_open. destruct (p_wait s2); [|discriminate]. intros H; injection H as <- <- <-; reflexivity.
Qed.
Print Assumptions C173_serial_status_partial.
Theorem C173_file_status_partial : forall os id p f p' f' ok, reports_open (File f) = false ->
  file_open os id p f = Ok (p', f', ok) -> reports_open (File f') = ok.
Proof. intros os id p f p' f' ok O. destruct os; intros H; injection H as <- <- <-; [exact O | reflexivity | reflexivity]. Qed.
Print Assumptions C173_file_status_partial.
(** An open file or port for which a further open(...) fails goes on reporting itself open. *)
Theorem C173_reopen_refuted : forall b id p f s, reports_open (File f) = true -> reports_open (Port s) = true -> throws b = true ->
  file_open FNoOpen id p f = Ok (p, f, false) /\ port_open b BadStopBits true id p s = Ok (p, s, false).
Proof. intros b id p f s _ _ T. unfold port_open. rewrite T. split; reflexivity. Qed.
Print Assumptions C173_reopen_refuted.
(** A device that was closed, a port whose device file is gone and a client whose peer hung up report themselves closed. *)
Theorem C173_closed : forall b e id p o p', get p id = Some o ->
  e = Close id true \/ (exists s, o = Port s) /\ e = QueryPort id false \/ (exists c w, o = Client c /\ e = HangUp id w) ->
  step b e p = Ok p' -> exists o', get p' id = Some o' /\ reports_open o' = false.
Proof.
  intros b e id p o p' G [-> | [((s & ->) & ->) | (c & w & -> & ->)]]; cbn [step]; rewrite G.
  - destruct o as [c|s|s|f].
    + unfold client_close. destruct (c_fd c); [|discriminate]. intros H; injection H as <-. rewrite get_put, Z.eqb_refl. eauto.
    + unfold server_close. destruct (s_fd s); [|discriminate]. intros H; injection H as <-. rewrite get_put, Z.eqb_refl. eauto.
    + unfold port_close. destruct (p_open s) as [[]|] eqn:O; [|intros H; injection H as <-|discriminate].
      * destruct (p_fd s); [|discriminate]. intros H; injection H as <-. rewrite get_put, Z.eqb_refl. eauto.
      * rewrite get_put, Z.eqb_refl. eexists. split; [reflexivity|]. cbn. rewrite O. reflexivity.
    + unfold file_close. destruct (f_file f) as [[fd []]|] eqn:O; [|discriminate|]; intros H; injection H as <-; rewrite get_put, Z.eqb_refl;
      eexists; (split; [reflexivity|]); cbn; rewrite ?O; reflexivity.
  - unfold port_query, port_close. destruct (p_open s) as [[]|] eqn:O; [|intros H; injection H as <-|discriminate].
    + destruct (p_fd s); [|discriminate]. intros H; injection H as <-. rewrite get_put, Z.eqb_refl. eauto.
    + rewrite get_put, Z.eqb_refl. eexists. split; [reflexivity|]. cbn. rewrite O. reflexivity.
  - unfold client_hangup, client_close. destruct (c_open c) eqn:O; [destruct (c_fd c); [|discriminate]|]; intros H; injection H as <-;
    rewrite get_put, Z.eqb_refl; eexists; (split; [reflexivity|]); cbn; auto.
Qed.
Print Assumptions C173_closed.
(** Unless fclose reports an error: then the file still reports itself open, though closing it again is undefined. *)
Theorem C173_failed_close_refuted : forall b, exists p o,
  run b [MakeFile 1 FOpened; Close 1 false] proc0 = Ok p /\ get p 1 = Some o /\ reports_open o = true /\ tab p = [] /\
  step b (Close 1 true) p = UB /\ step b (Destroy 1) p = UB.
Proof. intros []; eexists _, _; do 5 (split; [vm_compute; reflexivity|]); vm_compute; reflexivity. Qed.
Print Assumptions C173_failed_close_refuted.
(** An opening constructor leaves an object exactly if it succeeded or the build has no exceptions. *)
Theorem C173_constructors : forall b e id p p', is_new id p = true -> get p id = None ->
  (exists st os, e = MakeClient id st os /\ (os <> Connected)) \/ (exists st os, e = MakeServer id st os /\ os <> SBound) \/
  (exists st os, e = MakePort id st os /\ os <> PortUp) \/ (exists os, e = MakeFile id os /\ os <> FOpened) ->
  step b e p = Ok p' -> (get p' id = None <-> throws b = true).
Proof.
  intros b e id p p' N G K S.
  assert (A : forall X (wrap : X -> obj) m, (forall q x k, m = Ok (q, x, k) -> k = false /\ same_objs (created id p) q) ->
    constructed b wrap id m = Ok p' -> (get p' id = None <-> throws b = true)).
  { intros X wrap m F H. unfold constructed in H. destruct m as [[[q x] k]| |]; [|discriminate|discriminate].
    destruct (F q x k eq_refl) as (-> & So). cbn [bind orb] in H. destruct (throws b); cbn [negb] in H; injection H as <-.
    - split; [reflexivity|]. intros _. rewrite (same_objs_get _ _ id So). exact G.
    - rewrite get_put, Z.eqb_refl. split; discriminate. }
  destruct K as [(st & os & -> & O) | [(st & os & -> & O) | [(st & os & -> & O) | (os & -> & O)]]]; cbn [step] in S; rewrite N in S;
  refine (A _ _ _ _ S); intros q x k E.
  - split; [|exact (same_client_open _ _ _ _ _ _ _ E)]. unfold client_open in E. cbn in E. destruct os; try congruence; injection E as _ _ <-; reflexivity.
  - split; [|exact (same_server_open _ _ _ _ _ _ _ E)]. unfold server_open in E. cbn in E. destruct os; try congruence; injection E as _ _ <-; reflexivity.
  - split; [|exact (same_port_open _ _ _ _ _ _ _ _ _ E)]. unfold port_open in E. destruct os; try congruence;
    destruct (port_query true id (created id p) (opening_port st)) as [[[p1 s1] iso]| |]; try discriminate; cbn [bind] in E;
    destruct (if iso then _ else _) as [[p2 s2]| |]; try discriminate; cbn in E; unfold sys_open in E; congruence.
  - split; [|exact (same_file_open _ _ _ _ _ _ _ E)]. destruct os; try congruence; injection E as _ _ <-; reflexivity.
Qed.
Print Assumptions C173_constructors.
Example C173_closed_case : forall b, exists p o, run b [NewPort 1 Zeroed; OpenPort 1 PortUp true] proc0 = Ok p /\ get p 1 = Some o /\
  reports_open o = true /\ exists p' o', step b (QueryPort 1 false) p = Ok p' /\ get p' 1 = Some o' /\ reports_open o' = false.
Proof. intros []; eexists _, _; (do 3 (split; [vm_compute; reflexivity|])); eexists _, _; repeat (split; [vm_compute; reflexivity|]); vm_compute; reflexivity. Qed.
Example C173_case : exists p1 c1, client_open Connected 1 proc0 (mkClient None false) = Ok (p1, c1, true) /\
  exists p2 c2, client_open NoConnect 1 p1 c1 = Ok (p2, c2, false) /\ tab p2 = [].
Proof. eexists _, _. split; [reflexivity|]. eexists _, _. split; reflexivity. Qed.
Example C173_server_case : exists p1 s1 p2 s2, server_open SBound 1 proc0 (mkServer None None false) = Ok (p1, s1, true) /\
  server_open SNoSocket 1 p1 s1 = Ok (p2, s2, false) /\ reports_open (Server s2) = false.
Proof. eexists _, _, _, _. split; [reflexivity|]. split; reflexivity. Qed.

(** * C174: a serial port can be constructed and opened *)
(** Both ways read a member no constructor has set. *)
Theorem C174_open_refuted : forall b os, os <> BadStopBits ->
  run b [MakePort 1 Indeterminate os] proc0 = UB /\ run b [NewPort 1 Indeterminate; OpenPort 1 PortUp true] proc0 = UB.
Proof. intros b os N. split; [destruct os; try reflexivity; congruence | reflexivity]. Qed.
Print Assumptions C174_open_refuted.
(** In zeroed storage (static objects) no history of port calls is undefined. *)
Theorem C174_static_partial : forall b es, Forall zeroed_port es -> exists p, run b es proc0 = Ok p.
Proof. intros b es H. apply (run_ready b es H). intros id o. cbn. discriminate. Qed.
Print Assumptions C174_static_partial.
(** But such a port, default constructed, gets a timeout of zero, not the five seconds of the opening constructor. *)
Theorem C174_timeout_refuted : forall b, exists p q s t,
  run b [NewPort 1 Zeroed; OpenPort 1 PortUp true] proc0 = Ok p /\ get p 1 = Some (Port s) /\ p_wait s = Some 0 /\
  run b [MakePort 1 Zeroed PortUp] proc0 = Ok q /\ get q 1 = Some (Port t) /\ p_wait t = Some 5000.
Proof. intros b. eexists _, _, _, _. do 5 (split; [vm_compute; reflexivity|]). vm_compute. reflexivity. Qed.
Print Assumptions C174_timeout_refuted.
Example C174_case : Forall zeroed_port [NewPort 1 Zeroed; OpenPort 1 Locked true; OpenPort 1 PortUp true; OpenPort 1 PortUp false; QueryPort 1 false; Close 1 true; Destroy 1].
Proof. repeat constructor. Qed.

(** * C175: bytes read from a socket are the bytes sent *)
(** The bytes the reads returned. *)
Fixpoint read_bytes (tr : list (io * option answer)) : list Z :=
  match tr with (Read _ _ _, Some (Data l)) :: tr' => l ++ read_bytes tr' | _ :: tr' => read_bytes tr' | [] => [] end.
(** The bytes the peer sent before leaving. *)
Fixpoint peer_bytes (staying : bool) (is : list io) : list Z :=
  match is with
  | Arrive l :: is' => if staying then l ++ peer_bytes true is' else peer_bytes false is'
  | Leave Stays :: is' => peer_bytes staying is'
  | Leave _ :: is' => peer_bytes false is'
  | _ :: is' => peer_bytes staying is'
  | [] => []
  end.
Lemma read_bytes_delivered tr : read_bytes tr = delivered tr.
Proof.
  unfold delivered. induction tr as [|[i a] tr IH]; cbn; [reflexivity|].
  destruct i; try exact IH. destruct a as [[]|]; cbn; try exact IH. now rewrite IH.
Qed.
Lemma peer_bytes_gone is : peer_bytes false is = [].
Proof. induction is as [|i is IH]; cbn; [reflexivity|]. destruct i as [| [] | | | | |]; exact IH. Qed.
Lemma peer_bytes_sent is : peer_bytes true is = sent Stays is.
Proof.
  induction is as [|i is IH]; cbn; [reflexivity|]. destruct i as [l| [] | | | | |]; try exact IH.
  - now rewrite IH.
  - rewrite peer_bytes_gone. symmetry. apply sent_gone. discriminate.
  - rewrite peer_bytes_gone. symmetry. apply sent_gone. discriminate.
Qed.
(** For clients and servers, any calls and any arrivals: what was read, followed by what is still waiting, is what
    the peer sent. *)
Theorem C175_stream : forall server b is s c s' c' tr, pending c = [] -> peer c = Stays ->
  lives server b is s c = (s', c', tr) -> read_bytes tr ++ pending c' = peer_bytes true is.
Proof.
  intros server b is s c s' c' tr P Q L. rewrite read_bytes_delivered, peer_bytes_sent.
  pose proof (lives_stream _ _ _ _ _ _ _ _ L) as H. rewrite P, Q in H. exact H.
Qed.
Print Assumptions C175_stream.
(** A read on an open connection with bytes waiting returns some of them, at most as many as asked for. *)
Theorem C175_progress : forall (server : bool) b n k s c, k_open s = true -> pending c <> [] -> 1 <= n -> exists l,
  (if server then server_read else client_read) b n k false s c = (mkSock true false, drop (Zlen l) c, Data l) /\
  1 <= Zlen l <= n /\ exists rest, pending c = l ++ rest.
Proof.
  intros server b n k s c O P N. destruct (pending c) as [|x q] eqn:E; [congruence|].
  set (m := Z.max (Z.min 1 n) (Z.min k (Z.min n (Zlen (x :: q))))).
  assert (Hl : 1 <= Zlen (x :: q)) by (unfold Zlen; cbn [length]; lia).
  assert (Hm : 1 <= m <= n /\ m <= Zlen (x :: q)) by (unfold m; lia).
  assert (L : Zlen (firstn (Z.to_nat m) (x :: q)) = m).
  { unfold Zlen in *. rewrite firstn_length, Nat.min_l by lia. lia. }
  assert (F : exists y l, firstn (Z.to_nat m) (x :: q) = y :: l).
  { destruct (firstn (Z.to_nat m) (x :: q)) as [|y l] eqn:Z; [|eauto]. unfold Zlen in L. cbn in L. lia. }
  exists (firstn (Z.to_nat m) (x :: q)). destruct F as (y & l & F).
  split; [|split; [rewrite L; lia | exists (skipn (Z.to_nat m) (x :: q)); symmetry; apply firstn_skipn]].
  destruct server; [unfold server_read | unfold client_read]; rewrite O; cbn [negb]; unfold recv; rewrite E; fold m; rewrite F; reflexivity.
Qed.
Print Assumptions C175_progress.
(** Peeking returns the bytes the same read would, and takes none. *)
Theorem C175_peek : forall (server : bool) b n k s c s' c' l, k_open s = true -> 1 <= n ->
  (if server then server_peek else client_peek) b n k false s c = (s', c', Data l) ->
  c' = c /\ (l <> [] -> exists c'', (if server then server_read else client_read) b n k false s' c' = (mkSock true false, c'', Data l)).
Proof.
  intros server b n k s c s' c' l O N H.
  assert (X : recv n k false c = Some (Bytes l) /\ s' = mkSock true false /\ c' = c).
  { destruct server; [unfold server_peek in H | unfold client_peek in H]; rewrite ?O in H; cbn [negb] in H;
    (destruct (recv n k false c) as [[l'|r]|]; [injection H as <- <- <-; auto | destruct (debug_throws b); discriminate | discriminate]). }
  destruct X as (R & -> & ->). split; [reflexivity|]. intros Nl. destruct l as [|x l]; [congruence|].
  destruct server; [unfold server_read | unfold client_read]; cbn [k_open negb]; rewrite R; eauto.
Qed.
Print Assumptions C175_peek.
(** A write that succeeds answers with the number of bytes taken and leaves the connection as it was. *)
Theorem C175_write : forall (server : bool) b k s, k_open s = true ->
  exists s', (if server then server_write else client_write) b (Sent k) s = (s', Code k) /\ k_open s' = true.
Proof. intros server b k s O. destruct server; [unfold server_write | unfold client_write; rewrite O]; cbn; eauto. Qed.
Print Assumptions C175_write.
Example C175_case : forall b, exists s c tr,
  lives false b [Arrive [1; 2; 3]; Peek 2 2 false; Read 2 2 false; Arrive [4]; Leave Left; Read 10 10 false; Read 1 1 false; Read 1 1 false]
        (mkSock true false) (mkConn [] Stays) = (s, c, tr) /\ read_bytes tr = [1; 2; 3; 4] /\
  map snd tr = [None; Some (Data [1; 2]); Some (Data [1; 2]); None; None; Some (Data [3; 4]); Some (Code (-3)); Some (Code (-2))].
Proof. intros b. eexists _, _, _. split; [reflexivity|]. split; reflexivity. Qed.

(** * C176: a connection is reported hung up only when the peer is gone and everything was read *)
Theorem C176_hangup_partial : forall (server : bool) b n k flt s c s' c', 1 <= n ->
  (if server then server_read else client_read) b n k flt s c = (s', c', Code (-3)) ->
  pending c = [] /\ peer c <> Stays /\ k_open s' = false.
Proof.
  intros server b n k flt s c s' c' N H.
  assert (E : forall q, recv n k flt c = Some q -> q <> Bytes [] \/ (pending c = [] /\ peer c <> Stays)).
  { intros q. unfold recv. destruct flt; [intros [= <-]; left; discriminate|]. destruct (pending c) as [|x r] eqn:P.
    - destruct (peer c); [discriminate | | ]; intros _; right; split; auto; discriminate.
    - intros [= <-]. left. intros B. injection B as B. apply (f_equal (@length Z)) in B. rewrite firstn_length in B. cbn [length] in B.
      unfold Zlen in B. cbn [length] in B. lia. }
  assert (F : recv n k flt c = Some (Failed true) -> pending c = [] /\ peer c <> Stays).
  { unfold recv. destruct flt; [discriminate|]. destruct (pending c); [|discriminate]. destruct (peer c); [discriminate|discriminate|]. split; [reflexivity | discriminate]. }
  destruct server; [unfold server_read in H | unfold client_read in H]; destruct (k_open s) eqn:O; cbn [negb] in H; try discriminate.
  - destruct (recv n k flt c) as [[[|x l]|r]|] eqn:R; try discriminate.
    + injection H as <- <-. destruct (E _ eq_refl) as [X | X]; [congruence|]. tauto.
    + destruct (debug_throws b); discriminate.
  - destruct (recv n k flt c) as [[[|x l]|[]]|] eqn:R; try discriminate.
    + injection H as <- <-. destruct (E _ eq_refl) as [X | X]; [congruence|]. tauto.
    + injection H as <- <-. destruct (F eq_refl). auto.
    + destruct (debug_throws b); discriminate.
Qed.
Print Assumptions C176_hangup_partial.
(** Asking for no bytes while some are waiting tears the connection down and reports a hang-up. *)
Theorem C176_empty_read_refuted : forall (server : bool) b k s c, k_open s = true -> pending c <> [] -> exists s',
  (if server then server_read else client_read) b 0 k false s c = (s', c, Code (-3)) /\ k_open s' = false.
Proof.
  intros server b k s c O P. destruct (pending c) as [|x q] eqn:E; [congruence|].
  assert (R : recv 0 k false c = Some (Bytes [])).
  { unfold recv. rewrite E. replace (Z.max (Z.min 1 0) (Z.min k (Z.min 0 (Zlen (x :: q))))) with 0 by (unfold Zlen; lia). reflexivity. }
  destruct server; [unfold server_read | unfold client_read]; rewrite O; cbn [negb]; rewrite R; eexists; split; reflexivity.
Qed.
Print Assumptions C176_empty_read_refuted.
(** A reset connection is reported as hung up by a client; by a server only on the read after. *)
Theorem C176_reset_client : forall b n k s c, k_open s = true -> pending c = [] -> peer c = Reset -> exists s' c',
  client_read b n k false s c = (s', c', Code (-3)) /\ k_open s' = false.
Proof. intros b n k s c O P R. unfold client_read, recv. rewrite O, P, R. cbn. eauto. Qed.
Print Assumptions C176_reset_client.
Theorem C176_reset_server_refuted : forall n k s c, k_open s = true -> pending c = [] -> peer c = Reset -> exists s' c' s'' c'',
  server_read Release n k false s c = (s', c', Code (-1)) /\ k_open s' = true /\ server_read Release n k false s' c' = (s'', c'', Code (-3)).
Proof. intros n k s c O P R. unfold server_read, recv. rewrite O, P, R. cbn. rewrite P. eexists _, _, _, _. split; [reflexivity|]. split; reflexivity. Qed.
Print Assumptions C176_reset_server_refuted.
(** Writing to a peer that is gone reports a hang-up and leaves the socket closed; so does no other outcome of a write. *)
Theorem C176_write : forall (server : bool) b r s s' a, k_open s = true -> (forall k, r = Sent k -> 0 <= k) ->
  (if server then server_write else client_write) b r s = (s', a) ->
  (a = Code (-3) <-> r = Broken) /\ (k_open s' = false <-> r = Broken).
Proof.
  intros server b r s s' a O K. destruct server; [unfold server_write | unfold client_write; rewrite O; cbn [negb]];
  (destruct r as [k| |]; [pose proof (K k eq_refl) | | destruct (debug_throws b)]; intros H'; injection H' as <- <-; cbn; rewrite ?O;
   split; split; try discriminate; auto; intros X; try (injection X as X; lia); try discriminate).
Qed.
Print Assumptions C176_write.
(** A write that fails otherwise is thrown in debug builds; in the others it is reported and the error is kept. *)
Theorem C176_write_failed : forall (server : bool) b s s' a, k_open s = true ->
  (if server then server_write else client_write) b SendFails s = (s', a) ->
  match b with Debug => a = Raised /\ s' = s | _ => a = Code (-1) /\ k_open s' = true /\ k_err s' = true end.
Proof.
  intros server b s s' a O. destruct server; [unfold server_write | unfold client_write; rewrite O; cbn [negb]]; destruct b; cbn [debug_throws]; intros H; injection H as <- <-; cbn; rewrite ?O; auto.
Qed.
Print Assumptions C176_write_failed.
Example C176_case : exists s' c', client_read Release 5 1 false (mkSock true false) (mkConn [] Left) = (s', c', Code (-3)).
Proof. eexists _, _. reflexivity. Qed.

(** * C177: a socket that is not open says so *)
(** Once closed or hung up, a client answers every later call with "disconnected", whatever happens. *)
Theorem C177_client_disconnected : forall b is s c s' c' tr i a, k_open s = false -> lives false b is s c = (s', c', tr) ->
  In (i, a) tr -> match i with Arrive _ | Leave _ | Shut => a = None | _ => a = Some (Code (-2)) end.
Proof.
  intros b is. induction is as [|j is IH]; cbn [lives]; intros s c s' c' tr i a O.
  - intros H; injection H as <- <- <-. intros [].
  - destruct (life false b j s c) as [[s1 c1] x] eqn:L. destruct (lives false b is s1 c1) as [[s2 c2] tr'] eqn:E.
    intros H; injection H as <- <- <-. intros [H | H].
    + injection H as <- <-. destruct j; cbn [life] in L; unfold client_read, client_peek, client_remaining, client_write in L;
      rewrite ?O in L; cbn [negb] in L; injection L as _ _ <-; reflexivity.
    + apply (IH s1 c1 s2 c2 tr' i a); [apply (life_closed _ _ _ _ _ _ _ _ L O) | exact E | exact H].
Qed.
Print Assumptions C177_client_disconnected.
Theorem C177_server_read_partial : forall b is s c s' c' tr n k flt a, k_open s = false -> lives true b is s c = (s', c', tr) ->
  In (Read n k flt, a) tr -> a = Some (Code (-2)).
Proof.
  intros b is. induction is as [|j is IH]; cbn [lives]; intros s c s' c' tr n k flt a O.
  - intros H; injection H as <- <- <-. intros [].
  - destruct (life true b j s c) as [[s1 c1] x] eqn:L. destruct (lives true b is s1 c1) as [[s2 c2] tr'] eqn:E.
    intros H; injection H as <- <- <-. intros [H | H].
    + injection H as -> <-. cbn [life] in L. unfold server_read in L. rewrite O in L. cbn [negb] in L. injection L as _ _ <-. reflexivity.
    + apply (IH s1 c1 s2 c2 tr' n k flt a); [apply (life_closed _ _ _ _ _ _ _ _ L O) | exact E | exact H].
Qed.
Print Assumptions C177_server_read_partial.
(** A closed server still peeks, counts and writes. *)
Theorem C177_server_refuted : forall b e l w, l <> [] -> exists c a1 a2,
  server_peek b 1 1 false (mkSock false e) (mkConn l Stays) = (mkSock false false, c, Data a1) /\
  server_remaining b 0 false (mkSock false e) (mkConn l Stays) = (mkSock false false, Code a2) /\
  server_write b (Sent w) (mkSock false e) = (mkSock false false, Code w).
Proof. intros b e l w N. destruct l as [|x l]; [congruence|]. eexists _, _, _. split; [reflexivity|]. split; reflexivity. Qed.
Print Assumptions C177_server_refuted.
Example C177_case : forall b, exists s c tr, lives false b [Write Broken; Write (Sent 3); Arrive [1]; Read 1 1 false; Peek 1 1 false; Remaining 7 false]
  (mkSock true false) (mkConn [] Stays) = (s, c, tr) /\ map snd tr =
  [Some (Code (-3)); Some (Code (-2)); None; Some (Code (-2)); Some (Code (-2)); Some (Code (-2))].
Proof. intros b. eexists _, _, _. split; reflexivity. Qed.

(** * C178: remaining() is the number of bytes waiting *)
(** Only when the upper half of an uninitialised variable happens to be zero. *)
Theorem C178_remaining_partial : forall (server : bool) b junk s c, 0 <= junk < 2 ^ 32 -> Zlen (pending c) < 2 ^ 31 -> k_open s = true ->
  snd ((if server then server_remaining else client_remaining) b junk false s c) = Code (Zlen (pending c)).
Proof.
  intros server b junk s c J P O.
  assert (H : fionread junk (Zlen (pending c)) = Zlen (pending c)).
  { unfold fionread, u32, two32. pose proof (Zlen_nonneg (pending c)). rewrite (Z.div_small junk) by lia. rewrite Z.mod_small by lia.
    unfold wrap_s. rewrite Z.mul_0_l, Z.add_0_l, Z.mod_small by lia. destruct (Zlen (pending c) <? 2 ^ (64 - 1)) eqn:E; [reflexivity | lia]. }
  destruct server; [unfold server_remaining | unfold client_remaining; rewrite O]; cbn [negb snd]; now rewrite H.
Qed.
Print Assumptions C178_remaining_partial.
Theorem C178_remaining_refuted : forall (server : bool) b c, exists junk, 0 <= junk < 2 ^ 64 /\ exists z,
  snd ((if server then server_remaining else client_remaining) b junk false (mkSock true false) c) = Code z /\ z <> Zlen (pending c).
Proof.
  intros server b c. set (n := Zlen (pending c)).
  exists (if n <? 2 ^ 32 then 2 ^ 32 else 0). split; [destruct (n <? 2 ^ 32); lia|].
  pose proof (Zlen_nonneg (pending c)). fold n in H.
  eexists. split; [destruct server; reflexivity|]. fold n. unfold fionread, two32, u32, wrap_s, two32.
  pose proof (Z.mod_pos_bound n (2 ^ 32) ltac:(lia)) as B.
  destruct (n <? 2 ^ 32) eqn:E.
  - rewrite (Z.mod_small n) by lia. change (2 ^ 32 / 2 ^ 32 * 2 ^ 32) with (2 ^ 32). rewrite Z.mod_small by lia.
    destruct (_ <? 2 ^ (64 - 1)) eqn:F; lia.
  - change (0 / 2 ^ 32 * 2 ^ 32) with 0. rewrite Z.add_0_l, Z.mod_small by lia. destruct (_ <? 2 ^ (64 - 1)) eqn:F; lia.
Qed.
Print Assumptions C178_remaining_refuted.
(** When the query fails, a server says so; a client returns the uninitialised variable and clears the error. *)
Theorem C178_server_failure : forall junk s c, snd (server_remaining Release junk true s c) = Code (-1) /\
  k_err (fst (server_remaining Release junk true s c)) = true.
Proof. intros. split; reflexivity. Qed.
Print Assumptions C178_server_failure.
Theorem C178_client_failure_refuted : forall z s c, - 2 ^ 63 <= z < 2 ^ 63 -> k_open s = true -> exists junk, 0 <= junk < 2 ^ 64 /\
  client_remaining Release junk true s c = (mkSock true false, Code z).
Proof.
  intros z s c R O. exists (z mod 2 ^ 64). split; [apply Z.mod_pos_bound; lia|]. unfold client_remaining. rewrite O. cbn [negb debug_throws].
  do 2 f_equal. unfold wrap_s. rewrite Zmod_mod. destruct (Z_lt_le_dec z 0) as [N|N].
  - replace (z mod 2 ^ 64) with (z + 2 ^ 64) by (symmetry; rewrite <- (Z.mod_small (z + 2 ^ 64) (2 ^ 64)) by lia; rewrite <- (Z_mod_plus_full z 1); f_equal; lia).
    destruct (_ <? 2 ^ (64 - 1)) eqn:F; lia.
  - rewrite Z.mod_small by lia. destruct (_ <? 2 ^ (64 - 1)) eqn:F; lia.
Qed.
Print Assumptions C178_client_failure_refuted.
Example C178_case : snd (client_remaining Release 12345 false (mkSock true false) (mkConn [1; 2; 3] Stays)) = Code 3.
Proof. reflexivity. Qed.

(** * C179: error() describes the last call *)
(** For every call but a client's write (and calls answered without touching the connection): no error exactly after
    a success. *)
Theorem C179_error_partial : forall (server : bool) i s c s' c' a, k_open s = true ->
  match i with Read _ _ _ | Peek _ _ _ => True | Remaining _ flt => server = true \/ flt = false | Write r => server = true \/ r = SendFails | _ => False end ->
  life server Release i s c = (s', c', Some a) ->
  match a with Data _ => k_err s' = false | Code z => if z =? -1 then match i with Write (Sent _) | Remaining _ false => True | _ => k_err s' = true end
                                                     else z = -3 \/ k_err s' = false | _ => True end.
Proof.
  intros server i s c s' c' a O T. destruct i as [l|h|n k flt|n k flt|j flt|r|]; cbn in T; try contradiction; cbn [life].
  - destruct server; [unfold server_read | unfold client_read]; rewrite O; cbn [negb debug_throws];
    (destruct (recv n k flt c) as [[[|x l]|[]]|]; intros H; injection H as <- <- <-; cbn; auto).
  - destruct server; [unfold server_peek | unfold client_peek; rewrite O]; cbn [negb debug_throws];
    (destruct (recv n k flt c) as [[l|r]|]; intros H; injection H as <- <- <-; cbn; auto).
  - destruct server; [unfold server_remaining | unfold client_remaining; rewrite O]; cbn [negb debug_throws].
    + destruct flt; intros H; injection H as <- <- <-; [reflexivity|]. destruct (_ =? -1); cbn; auto.
    + destruct T as [T | ->]; [discriminate|]. intros H; injection H as <- <- <-. destruct (_ =? -1); cbn; auto.
  - destruct server; [unfold server_write | unfold client_write; rewrite O]; cbn [negb debug_throws].
    + destruct r; intros H; injection H as <- <- <-; cbn; auto. destruct (k =? -1); cbn; auto.
    + destruct T as [T | ->]; [discriminate|]. intros H; injection H as <- <- <-. reflexivity.
Qed.
Print Assumptions C179_error_partial.
(** A client's successful write leaves the error of an earlier failure in place. *)
Theorem C179_client_write_refuted : forall k s, k_open s = true -> exists s1 s2,
  client_write Release SendFails s = (s1, Code (-1)) /\ client_write Release (Sent k) s1 = (s2, Code k) /\ k_err s2 = true.
Proof. intros k s O. unfold client_write. rewrite O. cbn. eexists _, _. split; [reflexivity|]. split; reflexivity. Qed.
Print Assumptions C179_client_write_refuted.
Example C179_case : exists s c, life true Release (Write (Sent 4)) (mkSock true true) (mkConn [] Stays) = (s, c, Some (Code 4)) /\ k_err s = false.
Proof. eexists _, _. split; reflexivity. Qed.

(** Accepting a connection answers with the outcome: a fresh descriptor that is now in the table, or -1 and an unchanged table.  The listening descriptor stays. *)
Theorem C173_listen : forall ok id p s p' s' r, server_listen ok id p s = Ok (p', s', r) ->
  s_fd s' = s_fd s /\ s_open s' = s_open s /\
  (r = true -> ok = true /\ exists fd, s_peer s' = Some fd /\ 0 <= fd /\ used (tab p) fd = false /\ used (tab p') fd = true) /\
  (r = false -> p' = p /\ s_peer s' = Some (-1)) /\
  (r = true <-> ok = true /\ exists fd, s_fd s = Some fd /\ used (tab p) fd = true).
Proof.
  intros ok id p s p' s' r. unfold server_listen. destruct (s_fd s) as [l|] eqn:F; [|discriminate]. destruct ok; cbn [andb].
  - destruct (used (tab p) l) eqn:U.
    + destruct (sys_open id p) as [fd p1] eqn:S. intros [= <- <- <-]. cbn [s_fd s_open s_peer]. split; [reflexivity|]. split; [reflexivity|]. split; [|split; [discriminate|]].
      * intros _. split; [reflexivity|]. exists fd. split; [reflexivity|]. unfold sys_open in S. injection S as <- <-. pose proof (lowest_free (tab p)) as [Q1 Q2]. split; [exact Q2|]. split; [exact Q1|]. cbn. now rewrite Z.eqb_refl.
      * split; [|reflexivity]. intros _. eauto.
    + intros [= <- <- <-]. cbn. split; [reflexivity|]. split; [reflexivity|]. split; [discriminate|]. split; [auto|]. split; [discriminate|]. intros (_ & fd & [= ->] & Q). congruence.
  - intros [= <- <- <-]. cbn. split; [reflexivity|]. split; [reflexivity|]. split; [discriminate|]. split; [auto|]. split; [discriminate|]. intros (Q & _). discriminate.
Qed.
Print Assumptions C173_listen.
