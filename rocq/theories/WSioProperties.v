(** Properties of reading and writing serial ports on Windows (C239-C241). *)
From Verif Require Import Base WSioModel.

(** * C239: bytes are read in the order in which they arrive, none is lost and none is made up *)

Definition new_port : port := mkPort [] [] 0.
(** The bytes that arrived in a history. *)
Fixpoint arrived (l : list pcall) : list Z := match l with [] => [] | PArrive b :: tl => b ++ arrived tl | _ :: tl => arrived tl end.
(** No wait for a pending read failed. *)
Definition no_lost_wait (l : list pcall) : Prop := forall n k, ~ In (PRead n (RWaitFails k)) l.

Lemma settle_zero p : po_abandoned p = 0%nat -> settle p = p.
Proof. destruct p as [i o a]. cbn. intros ->. reflexivity. Qed.

Lemma read_ok p n a : po_abandoned p = 0%nat -> (forall k, a <> RWaitFails k) ->
  exists p1 b, w_read true p n a = (p1, (Zlen b, b)) /\ po_in p = b ++ po_in p1 /\ po_out p1 = po_out p /\ po_abandoned p1 = 0%nat /\ (length b <= n)%nat.
Proof.
  intros HA HW. unfold w_read. cbn [negb]. rewrite settle_zero by exact HA.
  destruct a as [k|k| |k|]; try (exfalso; exact (HW k eq_refl)).
  - unfold take. eexists _, _. split; [reflexivity|]. cbn. rewrite firstn_skipn. split; [reflexivity|]. split; [reflexivity|]. split; [exact HA|].
    rewrite firstn_length. lia.
  - unfold take. eexists _, _. split; [reflexivity|]. cbn. rewrite firstn_skipn. split; [reflexivity|]. split; [reflexivity|]. split; [exact HA|].
    rewrite firstn_length. lia.
  - exists p, []. cbn. repeat split; [exact HA|lia].
  - exists p, []. cbn. repeat split; [exact HA|lia].
Qed.

Theorem C239_in_order_partial : forall debug l p b, no_lost_wait l -> p_run debug new_port l = (p, b) ->
  arrived l = b ++ po_in p.
Proof.
  intros debug l p b HN.
  assert (G : forall l q, no_lost_wait l -> po_abandoned q = 0%nat -> forall p b, p_run debug q l = (p, b) -> po_in q ++ arrived l = b ++ po_in p).
  { clear. induction l as [|c l IH]; intros q HN HA p b H; cbn [p_run arrived] in *.
    - injection H as <- <-. rewrite app_nil_r. reflexivity.
    - assert (HN1 : no_lost_wait l) by (intros n k HI; apply (HN n k); right; exact HI).
      destruct (p_step debug q c) as [p1 b1] eqn:E. destruct (p_run debug p1 l) as [p2 b2] eqn:E2. injection H as <- <-.
      destruct c as [n a|d|s a|ok]; cbn [p_step] in E.
      + destruct (read_ok q n a HA) as (p3 & b3 & HR & HI & _ & HA3 & _). { intros k ->. apply (HN n k). left. reflexivity. }
        rewrite HR in E. injection E as <- <-. rewrite HI, <- !app_assoc. f_equal. apply (IH p3 HN1 HA3 _ _ E2).
      + injection E as <- <-. specialize (IH (arrive q d) HN1 HA _ _ E2). cbn in IH. rewrite <- app_assoc in IH. exact IH.
      + injection E as <- <-. unfold w_write, send in E2. destruct a as [k|k| |]; cbn in E2.
        * exact (IH (mkPort (po_in q) (po_out q ++ firstn k s) (po_abandoned q)) HN1 HA _ _ E2).
        * exact (IH (mkPort (po_in q) (po_out q ++ firstn k s) (po_abandoned q)) HN1 HA _ _ E2).
        * exact (IH q HN1 HA _ _ E2).
        * exact (IH q HN1 HA _ _ E2).
      + injection E as <- <-. exact (IH q HN1 HA _ _ E2). }
  intros H. specialize (G l new_port HN eq_refl p b H). cbn in G. exact G.
Qed.
Print Assumptions C239_in_order_partial.
(** A read whose wait fails returns 0 and loses bytes to a buffer that nobody looks at any more. *)
Theorem C239_lost_refuted : exists l p b, p_run false new_port l = (p, b) /\ arrived l <> b ++ po_in p.
Proof.
  exists [PRead 2 (RWaitFails 2); PArrive [1; 2; 3]; PRead 2 (RNow 2)]. eexists _, _. split; [reflexivity|]. cbn. discriminate.
Qed.
Print Assumptions C239_lost_refuted.
(** read(c) takes the first byte that has arrived, or nothing; what follows stays. *)
Theorem C239_char : forall p x l k p1 r, po_in p = x :: l -> po_abandoned p = 0%nat -> w_read_char true p (RNow k) = (p1, r) ->
  r = match k with O => (0, []) | _ => (1, [x]) end /\ po_in p1 = match k with O => x :: l | _ => l end.
Proof.
  intros p x l k p1 r HI HA H. unfold w_read_char, w_read in H. cbn [negb] in H. rewrite settle_zero in H by exact HA. unfold take in H. rewrite HI in H.
  destruct k as [|k]; cbn in H; injection H as <- <-; split; reflexivity.
Qed.
Print Assumptions C239_char.
(** The number returned is that of the bytes stored, never more than was asked for, and remaining() counts what can be read. *)
Theorem C239_count : forall p n a, exists p1 b, w_read true p n a = (p1, (Zlen b, b)) /\ (length b <= n)%nat.
Proof.
  intros p n a. unfold w_read. cbn [negb]. destruct a as [k|k| |k|].
  - unfold take. eexists _, _. split; [reflexivity|]. rewrite firstn_length. lia.
  - unfold take. eexists _, _. split; [reflexivity|]. rewrite firstn_length. lia.
  - exists (settle p), []. split; [reflexivity|cbn; lia].
  - exists (mkPort (po_in (settle p)) (po_out (settle p)) (Nat.min n k)), []. split; [reflexivity|cbn; lia].
  - exists (settle p), []. split; [reflexivity|cbn; lia].
Qed.
Print Assumptions C239_count.
Theorem C239_remaining : forall p, po_abandoned p = 0%nat -> forall n, Z.of_nat n <= w_remaining p true ->
  exists p1 b, w_read true p n (RNow n) = (p1, (Z.of_nat n, b)) /\ w_remaining p1 true = w_remaining p true - Z.of_nat n.
Proof.
  intros p HA n Hn. unfold w_remaining, Zlen in *. unfold w_read. cbn [negb]. rewrite settle_zero by exact HA. unfold take. rewrite Nat.min_id.
  eexists _, (firstn n (po_in p)). split.
  - f_equal. f_equal. unfold Zlen. rewrite firstn_length. lia.
  - cbn. rewrite skipn_length. lia.
Qed.
Print Assumptions C239_remaining.
(** When the system does not say how many there are, the answer is no number of bytes. *)
Theorem C239_remaining_failed : forall p q, w_remaining p false = -1 /\ 0 <= w_remaining q true.
Proof. intros p q. unfold w_remaining, Zlen. lia. Qed.
Print Assumptions C239_remaining_failed.
Example C239_case : no_lost_wait [PArrive [1; 2; 3]; PRead 2 (RLater 2); PRead 9 (RNow 9)] /\
  p_run false new_port [PArrive [1; 2; 3]; PRead 2 (RLater 2); PRead 9 (RNow 9)] = (mkPort [] [] 0, [1; 2; 3]).
Proof. split; [|reflexivity]. intros n k [H|[H|[H|[]]]]; discriminate. Qed.

(** * C240: errors of reading and writing are reported *)

(** serial_w32.hpp:264, 276 announce an exception in debug mode for a read that fails: it returns 0, as a read does that finds nothing. *)
Theorem C240_read_error_refuted : forall n, exists p, w_read true p n RRefused = w_read true p n (RNow n) /\
  w_read true p n RLaterFails = w_read true p n (RNow n) /\ w_read false p n RRefused = (p, (0, [])).
Proof.
  intros n. exists new_port. unfold w_read, take, settle. cbn. rewrite Nat.min_id. rewrite firstn_nil, skipn_nil. repeat split.
Qed.
Print Assumptions C240_read_error_refuted.
(** In a debug build a write that sends nothing throws; otherwise the number is that of the bytes sent, which are the first ones. *)
Theorem C240_write : forall debug p s a p1 r, w_write debug p s a = (p1, r) ->
  exists b, po_out p1 = po_out p ++ b /\ (exists rest, s = b ++ rest) /\
            r = if debug && (Zlen b =? 0) then Throw WriteError else Ok (Zlen b).
Proof.
  intros debug p s a p1 r H. unfold w_write in H.
  assert (G : forall b : list Z, (_ <- assert_throw debug (negb (Zlen b =? 0)) WriteError ;; Ok (Zlen b)) = if debug && (Zlen b =? 0) then Throw WriteError else Ok (Zlen b)).
  { intros b. unfold assert_throw. rewrite negb_involutive. destruct (debug && (Zlen b =? 0)); reflexivity. }
  destruct a as [k|k| |]; cbn [send] in H; injection H as <- <-.
  - exists (firstn k s). cbn. split; [reflexivity|]. split; [exists (skipn k s); symmetry; apply firstn_skipn|apply G].
  - exists (firstn k s). cbn. split; [reflexivity|]. split; [exists (skipn k s); symmetry; apply firstn_skipn|apply G].
  - exists []. cbn. rewrite app_nil_r. split; [reflexivity|]. split; [exists s; reflexivity|exact (G [])].
  - exists []. cbn. rewrite app_nil_r. split; [reflexivity|]. split; [exists s; reflexivity|exact (G [])].
Qed.
Print Assumptions C240_write.
(** Writing no bytes at all, which succeeds, throws; and in a release build a write that fails returns what it would for no bytes. *)
Theorem C240_empty_write_refuted : forall p, snd (w_write true p [] (WNow 0)) = Throw WriteError /\
  forall s, snd (w_write false p s WRefused) = snd (w_write false p [] (WNow 0)).
Proof. intros p. split; [reflexivity|]. intros s. reflexivity. Qed.
Print Assumptions C240_empty_write_refuted.
Example C240_case : w_write true new_port [1; 2; 3] (WLater 2) = (mkPort [] [1; 2] 0, Ok 2).
Proof. reflexivity. Qed.

(** * C241: time-outs *)

(** block(t) makes reads wait for a byte for t milliseconds, for every t that is positive and in range; unblock() makes them return at once. *)
Theorem C241_block_partial : forall debug t, 0 < t < 2 ^ 31 -> exists c, w_block debug t = Ok c /\ read_waits c = FirstByte t.
Proof.
  intros debug t Ht. unfold w_block, assert_throw. replace (0 <=? t) with true by lia. rewrite andb_false_r. cbn [bind].
  eexists. split; [reflexivity|]. unfold read_waits, u32. cbn [c_interval c_multiplier c_constant]. rewrite Z.mod_small by (change two32 with (2 ^ 32); lia).
  rewrite Z.eqb_refl. replace (maxdword =? 0) with false by reflexivity. cbn [andb].
  assert (t < maxdword) by (unfold maxdword; lia). replace (0 <? t) with true by lia. replace (t <? maxdword) with true by lia. reflexivity.
Qed.
Print Assumptions C241_block_partial.
Theorem C241_unblock : read_waits w_unblock = AtOnce.
Proof. reflexivity. Qed.
Print Assumptions C241_unblock.
(** block(0) is accepted, although the message of the exception asks for more than 0, and sets a combination that the system does not describe;
    negative times are refused in debug builds only and wait for weeks in release builds. *)
Theorem C241_zero_refuted : forall debug, exists c, w_block debug 0 = Ok c /\ read_waits c = Undescribed.
Proof. intros debug. destruct debug; eexists; split; reflexivity. Qed.
Print Assumptions C241_zero_refuted.
Theorem C241_negative_refuted : (forall t, t < 0 -> w_block true t = Throw InvalidInputError) /\
  forall t, - 2 ^ 31 <= t < -1 -> exists c, w_block false t = Ok c /\ read_waits c = FirstByte (t + 2 ^ 32).
Proof.
  split.
  - intros t Ht. unfold w_block, assert_throw. replace (0 <=? t) with false by lia. reflexivity.
  - intros t Ht. unfold w_block, assert_throw. cbn [andb bind]. eexists. split; [reflexivity|]. unfold read_waits, u32. cbn [c_interval c_multiplier c_constant].
    assert (E : t mod two32 = t + 2 ^ 32). { symmetry. apply (Z.mod_unique_pos t two32 (-1)); [change two32 with (2 ^ 32); lia|change two32 with (2 ^ 32); lia]. }
    rewrite E. rewrite Z.eqb_refl. replace (maxdword =? 0) with false by reflexivity. cbn [andb].
    assert (t + 2 ^ 32 < maxdword) by (unfold maxdword; lia). replace (0 <? t + 2 ^ 32) with true by lia. replace (t + 2 ^ 32 <? maxdword) with true by lia. reflexivity.
Qed.
Print Assumptions C241_negative_refuted.
(** The numbers given to the system, and that these two are the only time-outs with a documented meaning. *)
Theorem C241_numbers : forall debug t, 0 <= t < 2 ^ 31 -> w_block debug t = Ok (mkComm 4294967295 4294967295 t) /\ w_unblock = mkComm 4294967295 0 0.
Proof.
  intros debug t Ht. unfold w_block, assert_throw, u32. replace (0 <=? t) with true by lia. rewrite andb_false_r. cbn [bind].
  rewrite Z.mod_small by (change two32 with (2 ^ 32); lia). split; reflexivity.
Qed.
Print Assumptions C241_numbers.
Theorem C241_described : forall i m c, (read_waits (mkComm i m c) = AtOnce <-> i = 4294967295 /\ m = 0 /\ c = 0)
  /\ forall t, read_waits (mkComm i m c) = FirstByte t <-> i = 4294967295 /\ m = 4294967295 /\ c = t /\ 0 < t < 4294967295.
Proof.
  intros i m c. unfold read_waits. cbn [c_interval c_multiplier c_constant]. change maxdword with 4294967295.
  split; [|intros t]; destruct (Z.eqb_spec i 4294967295), (Z.eqb_spec m 0), (Z.eqb_spec c 0), (Z.eqb_spec m 4294967295), (Z.ltb_spec 0 c), (Z.ltb_spec c 4294967295);
    cbn [andb]; split; intros HH; try discriminate; try (injection HH as <-); try (repeat split; lia); try (exfalso; lia); try (f_equal; lia).
Qed.
Print Assumptions C241_described.
Example C241_case : w_block true 5000 = Ok (mkComm maxdword maxdword 5000).
Proof. reflexivity. Qed.
