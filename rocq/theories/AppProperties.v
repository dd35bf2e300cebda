(** Properties of the command line programs (C234-C238). *)
From Verif Require Import RBase PolyModel ConvModel ConvProofs AppModel.
Open Scope R_scope.

(** * C234: yaw to quaternion and back *)

Lemma sign_pos x : 0 < x -> sign x = 1%Z.
Proof. intros H. unfold sign. destruct (Rlt_dec 0 x); [reflexivity|lra]. Qed.
Lemma sign_neg x : x < 0 -> sign x = (-1)%Z.
Proof. intros H. unfold sign. destruct (Rlt_dec 0 x); [lra|]. destruct (Rlt_dec x 0); [reflexivity|lra]. Qed.
Lemma sign_zero : sign 0 = 0%Z.
Proof. unfold sign. destruct (Rlt_dec 0 0); [lra|]. destruct (Rlt_dec 0 0); [lra|reflexivity]. Qed.

Lemma q2y_ok q : -1 <= qw q <= 1 ->
  q2y q = FOk (mkYO (nonzero (qx q) && nonzero (qy q)) (2 * acos (qw q) * IZR (sign (qz q))) (2 * acos (qw q) * IZR (sign (qz q)) * 360 / (2 * PI))).
Proof.
  intros H. unfold q2y. rewrite facos_ok by exact H. cbn [fbind]. unfold fdiv. pose proof PI_RGT_0.
  destruct (Req_EM_T (2 * PI) 0); [lra|]. reflexivity.
Qed.

(** The rotation by the printed angle about z is the rotation of the quaternion, for every quaternion of a rotation about z. *)
Theorem C234_same_rotation : forall z w, z * z + w * w = 1 ->
  exists o, q2y (mkQ 0 0 z w) = FOk o /\ yo_warned o = false /\
            cos (yo_rads o) = w * w - z * z /\ sin (yo_rads o) = 2 * w * z /\ - (2 * PI) < yo_rads o < 2 * PI /\ yo_degrees o * PI = yo_rads o * 180.
Proof.
  intros z w H. assert (HW : -1 <= w <= 1) by (split; nra). eexists. split; [apply q2y_ok; exact HW|]. cbn [qx qy qz qw yo_warned yo_rads yo_degrees].
  pose proof PI_RGT_0 as HPI.
  split. { unfold nonzero. destruct (Req_EM_T 0 0); [reflexivity|contradiction]. }
  assert (HC : cos (acos w) = w) by (apply cos_acos; lra).
  assert (HB : 0 <= acos w <= PI) by apply acos_bound.
  assert (HS : sin (acos w) = Rabs z).
  { rewrite sin_acos by lra. rewrite <- (sqrt_Rsqr_abs z). f_equal. unfold Rsqr. lra. }
  assert (D : forall r, r * 360 / (2 * PI) * PI = r * 180) by (intros r; field; lra).
  destruct (Rtotal_order z 0) as [Hz|[->|Hz]].
  - rewrite (sign_neg z Hz).
    replace (2 * acos w * -1) with (- (2 * acos w)) by ring. rewrite cos_neg, sin_neg, cos_2a, sin_2a, HC, HS, Rabs_left by exact Hz.
    assert (acos w < PI). { destruct (Req_dec (acos w) PI) as [E|]; [|lra]. rewrite E, cos_PI in HC. subst w. nra. }
    repeat split; try nra; rewrite <- D; field; lra.
  - rewrite sign_zero. replace (2 * acos w * 0) with 0 by ring. rewrite cos_0, sin_0. repeat split; try nra; rewrite <- D; reflexivity.
  - rewrite (sign_pos z Hz). replace (2 * acos w * 1) with (2 * acos w) by ring. rewrite cos_2a, sin_2a, HC, HS, Rabs_right by lra.
    assert (acos w < PI). { destruct (Req_dec (acos w) PI) as [E|]; [|lra]. rewrite E, cos_PI in HC. subst w. nra. }
    repeat split; try nra; rewrite <- D; field; lra.
Qed.
Print Assumptions C234_same_rotation.

(** There and back: the same rotation for every yaw, and the same number within one turn either way. *)
Theorem C234_round_trip : forall yaw, exists o, q2y (y2q yaw) = FOk o /\ yo_warned o = false /\
  cos (yo_rads o) = cos yaw /\ sin (yo_rads o) = sin yaw /\ (- (2 * PI) < yaw < 2 * PI -> yo_rads o = yaw).
Proof.
  intros yaw. unfold y2q. replace (sin (yaw / 2) * 0) with 0 by ring. replace (sin (yaw / 2) * 1) with (sin (yaw / 2)) by ring.
  pose proof (sin2_cos2 (yaw / 2)) as H. unfold Rsqr in H.
  destruct (C234_same_rotation _ _ H) as (o & HO & HW & HC & HS & HB & _). exists o. split; [exact HO|]. split; [exact HW|].
  assert (E : yaw = 2 * (yaw / 2)) by field.
  assert (HC2 : cos yaw = cos (yaw / 2) * cos (yaw / 2) - sin (yaw / 2) * sin (yaw / 2)) by (rewrite E at 1; apply cos_2a).
  assert (HS2 : sin yaw = 2 * sin (yaw / 2) * cos (yaw / 2)) by (rewrite E at 1; apply sin_2a).
  split; [lra|]. split; [nra|]. intros HY.
  assert (HW1 : -1 <= cos (yaw / 2) <= 1) by apply COS_bound.
  rewrite q2y_ok in HO by exact HW1. cbn [qx qy qz qw] in HO. injection HO as <-. cbn [yo_rads].
  destruct (Rtotal_order yaw 0) as [Hn|[->|Hp]].
  - assert (sin (yaw / 2) < 0) by (apply sin_lt_0_var; lra). rewrite sign_neg by assumption.
    rewrite <- cos_neg. rewrite acos_cos by lra. field.
  - replace (0 / 2) with 0 by field. rewrite sin_0, sign_zero. ring.
  - assert (0 < sin (yaw / 2)) by (apply sin_gt_0; lra). rewrite sign_pos by assumption. rewrite acos_cos by lra. field.
Qed.
Print Assumptions C234_round_trip.

(** The program says that it aborts for rotations that are not about z; it prints a yaw of 0 without complaint for half a turn about x, and prints a
    yaw after complaining. *)
Theorem C234_other_axes_refuted :
  (exists q o, qx q * qx q + qy q * qy q + qz q * qz q + qw q * qw q = 1 /\ qx q <> 0 /\ q2y q = FOk o /\ yo_warned o = false /\ yo_rads o = 0) /\
  (exists q o, qx q * qx q + qy q * qy q + qz q * qz q + qw q * qw q = 1 /\ q2y q = FOk o /\ yo_warned o = true).
Proof.
  split.
  - exists (mkQ 1 0 0 0). eexists. split; [cbn; ring|]. split; [cbn; lra|]. split; [apply q2y_ok; cbn; lra|]. cbn.
    split. { unfold nonzero. destruct (Req_EM_T 0 0); [apply andb_false_r|contradiction]. }
    rewrite sign_zero. ring.
  - exists (mkQ (3 / 5) (4 / 5) 0 0). eexists. split; [cbn; field|]. split; [apply q2y_ok; cbn; lra|]. cbn.
    unfold nonzero. destruct (Req_EM_T (3 / 5) 0); [lra|]. destruct (Req_EM_T (4 / 5) 0); [lra|]. reflexivity.
Qed.
Print Assumptions C234_other_axes_refuted.
(** A w that is not the w of a unit quaternion prints no number. *)
Theorem C234_not_normal : forall x y z w, 1 < Rabs w -> q2y (mkQ x y z w) = FNonFinite.
Proof.
  intros x y z w H. unfold q2y, facos. cbn [qw]. destruct (Rlt_dec w (-1)); [reflexivity|]. destruct (Rlt_dec 1 w); [reflexivity|].
  unfold Rabs in H. destruct (Rcase_abs w); lra.
Qed.
Print Assumptions C234_not_normal.
Example C234_case : (3 / 5) * (3 / 5) + (4 / 5) * (4 / 5) = 1.
Proof. field. Qed.

Open Scope Z_scope.

(** * C235: what is typed is sent *)

(** Whole lines, with their newline, cut into pieces of at most 79 characters: the pieces put together again. *)
Lemma fgets_split k s a b : fgets_loop k s = (a, b) -> s = a ++ b /\ (length a <= k)%nat.
Proof.
  revert s a b. induction k as [|k IH]; intros [|c s] a b H; cbn in H; try (injection H as <- <-; split; [reflexivity|cbn; lia]).
  destruct (c =? 10). { injection H as <- <-. split; [reflexivity|cbn; lia]. }
  destruct (fgets_loop k s) as [a1 b1] eqn:E. injection H as <- <-. destruct (IH _ _ _ E) as [-> HL]. split; [reflexivity|cbn; lia].
Qed.
Lemma some_inj {A} (x y : A) : Some x = Some y -> x = y.
Proof. congruence. Qed.
Lemma fgets_first k c s a b : fgets_loop (S k) (c :: s) = (a, b) -> (0 < length a)%nat.
Proof.
  cbn [fgets_loop]. destruct (c =? 10); [intros H; injection H as <- <-; cbn; lia|].
  destruct (fgets_loop k s). intros H; injection H as <- <-. cbn. lia.
Qed.
Lemma fgets_some s a b : fgets 80 s = Some (a, b) -> s = a ++ b /\ (0 < length a <= 79)%nat /\ (length b < length s)%nat.
Proof.
  unfold fgets. destruct s as [|c s]; [discriminate|]. intros H. apply some_inj in H. change (80 - 1)%nat with 79%nat in H.
  destruct (fgets_split _ _ _ _ H) as [HS HL]. split; [exact HS|].
  assert (0 < length a)%nat by exact (fgets_first 78 c s a b H).
  split; [lia|]. rewrite HS, app_length. lia.
Qed.
Lemma before_null_id s : ~ In 0 s -> before_null s = s.
Proof.
  induction s as [|c s IH]; intros H; [reflexivity|]. cbn. destruct (c =? 0) eqn:E; [apply Z.eqb_eq in E; subst; destruct H; left; reflexivity|].
  rewrite IH; [reflexivity|]. intros HI. apply H. right. exact HI.
Qed.
Lemma before_null_len s : (length (before_null s) <= length s)%nat.
Proof. induction s as [|c s IH]; [cbn; lia|]. cbn. destruct (c =? 0); cbn; lia. Qed.

Theorem C235_all_sent : forall input, ~ In 0 input ->
  exists ws, writer (S (length input)) input = Some ws /\ concat ws = input /\ Forall (fun w => (0 < length w <= 79)%nat) ws.
Proof.
  intros input H. assert (G : forall k s, (length s < k)%nat -> ~ In 0 s ->
    exists ws, writer k s = Some ws /\ concat ws = s /\ Forall (fun w => (0 < length w <= 79)%nat) ws).
  { clear. induction k as [|k IH]; intros s Hk HN; [lia|]. cbn [writer]. destruct (fgets 80 s) as [[a b]|] eqn:E.
    - destruct (fgets_some _ _ _ E) as (-> & HA & HB). destruct (IH b) as (ws & HW & HC & HF); [lia|intros HI; apply HN, in_or_app; right; exact HI|].
      rewrite HW. eexists. split; [reflexivity|]. rewrite before_null_id by (intros HI; apply HN, in_or_app; left; exact HI).
      split; [cbn; rewrite HC; reflexivity|]. constructor; [exact HA|exact HF].
    - destruct s; [|discriminate]. exists []. repeat split. constructor. }
  apply G; [lia|exact H].
Qed.
Print Assumptions C235_all_sent.
(** A null byte: the rest of its line is not sent. *)
Theorem C235_null_refuted : exists input ws, writer (S (length input)) input = Some ws /\ concat ws <> input.
Proof. exists [65; 0; 66; 10; 67; 10], [[65]; [67; 10]]. split; [reflexivity|]. cbn. congruence. Qed.
Print Assumptions C235_null_refuted.
(** For any input the program terminates with the input, and sends no more than it. *)
Theorem C235_total : forall input, exists ws, writer (S (length input)) input = Some ws /\ (length (concat ws) <= length input)%nat /\
  Forall (fun w => ~ In 0 w) ws.
Proof.
  intros input. assert (G : forall k s, (length s < k)%nat ->
    exists ws, writer k s = Some ws /\ (length (concat ws) <= length s)%nat /\ Forall (fun w => ~ In 0 w) ws).
  { clear. induction k as [|k IH]; intros s Hk; [lia|]. cbn [writer]. destruct (fgets 80 s) as [[a b]|] eqn:E.
    - destruct (fgets_some _ _ _ E) as (-> & HA & HB). destruct (IH b) as (ws & HW & HC & HF); [lia|].
      rewrite HW. eexists. split; [reflexivity|]. cbn [concat]. rewrite !app_length. pose proof (before_null_len a). split; [lia|].
      constructor; [|exact HF]. clear. induction a as [|c a IH]; [intros []|]. cbn. destruct (c =? 0) eqn:E; [intros []|]. intros [->|HI]; [discriminate|]. exact (IH HI).
    - destruct s; [|discriminate]. exists []. cbn. split; [reflexivity|]. split; [lia|constructor]. }
  apply G. lia.
Qed.
Print Assumptions C235_total.
Example C235_case : writer 7 [104; 105; 10; 121; 111; 10] = Some [[104; 105; 10]; [121; 111; 10]].
Proof. reflexivity. Qed.

(** * C236: the hex program *)

(** Whatever is typed on a line: because the line ends in a newline nothing of it is sent. *)
Lemma fgets_line text rest : ~ In 10 text -> (length text <= 78)%nat -> fgets 80 (text ++ 10 :: rest) = Some (text ++ [10], rest).
Proof.
  intros HN HL. assert (G : forall k t, ~ In 10 t -> (length t < k)%nat -> fgets_loop k (t ++ 10 :: rest) = (t ++ [10], rest)).
  { clear. induction k as [|k IH]; intros t HN HL; [lia|]. destruct t as [|c t]; [reflexivity|]. cbn [app fgets_loop].
    destruct (c =? 10) eqn:E; [apply Z.eqb_eq in E; subst; destruct HN; left; reflexivity|].
    rewrite IH; [reflexivity|intros HI; apply HN; right; exact HI|cbn in HL; lia]. }
  unfold fgets. destruct text as [|c t]; [reflexivity|]. cbn [app]. change (c :: t ++ 10 :: rest) with ((c :: t) ++ 10 :: rest). rewrite G; [reflexivity|exact HN|lia].
Qed.
Lemma hex_newline debug st byte out s : ~ In 0 s -> hex_loop debug st byte out (s ++ [10]) = if debug then Throw ConversionError else Ok ([], Some ConversionError).
Proof.
  revert st byte out. induction s as [|c s IH]; intros st byte out HN.
  - cbn. destruct st; reflexivity.
  - assert (HN1 : ~ In 0 s) by (intros HI; apply HN; right; exact HI). cbn [app hex_loop].
    destruct st.
    + destruct (c =? 48); [apply IH; exact HN1|]. destruct (c =? 32); [apply IH; exact HN1|reflexivity].
    + destruct (c =? 120); [apply IH; exact HN1|reflexivity].
    + destruct (hexval c); [apply IH; exact HN1|reflexivity].
    + destruct (hexval c); [apply IH; exact HN1|reflexivity].
Qed.
Theorem C236_line_refuted : forall debug byte0 k text rest,
  ~ In 10 text -> ~ In 0 text -> (length text <= 78)%nat ->
  hex_writer (S k) debug 0 byte0 (text ++ 10 :: rest) = Some (if debug then HTerminated [] else HUndefined []).
Proof.
  intros debug byte0 k text rest HN H0 HL. cbn [hex_writer]. rewrite fgets_line by assumption.
  rewrite before_null_id. 2:{ intros HI. apply in_app_or in HI. destruct HI as [HI|[HI|[]]]; [exact (H0 HI)|discriminate]. }
  unfold hex_parse. rewrite hex_newline by exact H0. destruct debug; reflexivity.
Qed.
Print Assumptions C236_line_refuted.
(** Only a text that the input ends with, without a newline, is sent: its bytes, in order. *)
Theorem C236_last_partial : forall debug byte0 k text bytes,
  hex_text text bytes -> bytes <> [] -> ~ In 10 text -> ~ In 0 text -> (length text <= 79)%nat ->
  hex_writer (S (S k)) debug 0 byte0 text = Some (HSent [map (wrap_s 8) bytes]).
Proof.
  intros debug byte0 k text bytes HT HB HN H0 HL. cbn [hex_writer].
  assert (HF : fgets 80 text = Some (text, [])).
  { assert (G : forall j t, ~ In 10 t -> (length t <= j)%nat -> fgets_loop j t = (t, [])).
    { clear. induction j as [|j IH]; intros [|c t] HN HL; try reflexivity; [cbn in HL; lia|]. cbn.
      destruct (c =? 10) eqn:E; [apply Z.eqb_eq in E; subst; destruct HN; left; reflexivity|].
      rewrite IH; [reflexivity|intros HI; apply HN; right; exact HI|cbn in HL; lia]. }
    unfold fgets. destruct text as [|c t]; [inversion HT; subst; contradiction|]. rewrite G; [reflexivity|exact HN|cbn in *; lia]. }
  rewrite HF, before_null_id by exact H0. unfold hex_parse. rewrite (hex_text_ok debug text bytes HT byte0 []). cbn [app].
  destruct bytes as [|b bytes]; [contradiction|]. cbn [map fgets hcons]. reflexivity.
Qed.
Print Assumptions C236_last_partial.
(** If the thread reads a line before the constructor is through, it uses a converter that does not exist yet. *)
Theorem C236_race_refuted : exists text bytes, hex_text text bytes /\
  hex_writer 2 false 0 0 text = Some (HSent [bytes]) /\ forall debug byte0 n, hex_writer 2 debug (S n) byte0 text = Some (HUndefined []).
Proof.
  exists [48; 120; 49; 50], [18]. split; [apply (HexTok 49 50 1 2 [] []); [reflexivity|reflexivity|constructor]|].
  split; [reflexivity|]. intros debug byte0 n. reflexivity.
Qed.
Print Assumptions C236_race_refuted.
Example C236_case : hex_text [48; 120; 49; 50] [18].
Proof. apply (HexTok 49 50 1 2 [] []); [reflexivity|reflexivity|constructor]. Qed.

(** * C237: a time stamp before every line *)

(** The characters that arrive, and the times at which they do. *)
Fixpoint got (l : list arrival) : list (Z * Z) :=
  match l with [] => [] | Got t c :: tl => (t, c) :: got tl | Hung :: _ => [] | _ :: tl => got tl end.
(** Each line with the time of its first character in front of it; [first]: a line begins here. *)
Fixpoint stamped (first : bool) (l : list (Z * Z)) : list shown :=
  match l with [] => [] | (t, c) :: tl => (if first then [Stamp t] else []) ++ Text c :: stamped (c =? 10) tl end.
(** No line is empty. *)
Fixpoint no_empty (first : bool) (l : list (Z * Z)) : Prop :=
  match l with [] => True | (t, c) :: tl => (first = true -> c <> 10) /\ no_empty (c =? 10) tl end.
Definition hung (l : list arrival) : list shown := if existsb (fun a => match a with Hung => true | _ => false end) l then [HungUp] else [].

Theorem C237_stamped_partial : forall l stamp0, no_empty true (got l) ->
  reader true false true stamp0 l = stamped true (got l) ++ hung l.
Proof.
  assert (G : forall l nl stamp0, no_empty nl (got l) -> reader true false nl stamp0 l = stamped nl (got l) ++ hung l).
  { induction l as [|a l IH]; intros nl stamp0 H; [reflexivity|]. destruct a as [t c| | |]; cbn [reader got stamped] in *; try (apply IH; exact H); [|reflexivity].
    destruct H as [H1 H2]. destruct nl; cbn -[Z.eqb].
    - assert (E : (c =? 10) = false) by (apply Z.eqb_neq, H1; reflexivity). rewrite E in *. do 2 f_equal. apply IH. exact H2.
    - f_equal. replace (if c =? 10 then true else false) with (c =? 10) by (destruct (c =? 10); reflexivity). apply IH. exact H2. }
  intros l stamp0 H. apply G. exact H.
Qed.
Print Assumptions C237_stamped_partial.
(** After an empty line the next line has no time stamp. *)
Theorem C237_empty_line_refuted : exists l, reader true false true 0 l <> stamped true (got l) ++ hung l.
Proof. exists [Got 1 10; Got 2 65]. cbn. discriminate. Qed.
Print Assumptions C237_empty_line_refuted.
(** Whatever the options, the characters that arrived are shown, all of them and in order. *)
Definition char_of (x : shown) : list Z := match x with Text c | Hexed c => [c] | _ => [] end.
Theorem C237_all_shown : forall timestamps hex nl stamp0 l, flat_map char_of (reader timestamps hex nl stamp0 l) = map snd (got l).
Proof.
  intros timestamps hex nl stamp0 l. revert nl stamp0. induction l as [|a l IH]; intros nl stamp0; [reflexivity|].
  destruct a as [t c| | |]; cbn [reader got map]; try apply IH; [|reflexivity].
  rewrite flat_map_app, IH. destruct hex, timestamps, nl; reflexivity.
Qed.
Print Assumptions C237_all_shown.
(** With -x every character has a time stamp, but not its own time. *)
Theorem C237_hex_times_refuted : exists l, (forall a, In a l -> exists t c, a = Got t c) /\
  reader true true true 0 l <> flat_map (fun tc => [Stamp (fst tc); Hexed (snd tc)]) (got l).
Proof. exists [Got 1 65; Got 2 66]. split; [intros a [<-|[<-|[]]]; eexists _, _; reflexivity|]. cbn. discriminate. Qed.
Print Assumptions C237_hex_times_refuted.
Example C237_case : no_empty true (got [Got 1 65; Nothing; Got 2 10; Got 3 66; Hung]) /\
  reader true false true 0 [Got 1 65; Nothing; Got 2 10; Got 3 66; Hung] = [Stamp 1; Text 65; Text 10; Stamp 3; Text 66; HungUp].
Proof. split; [cbn; intuition discriminate|reflexivity]. Qed.

(** * C238: the readers of serial ports *)

(** What was read is shown, and nothing when there was nothing. *)
Theorem C238_shown_partial : forall n s, 0 <= n <= 255 -> Zlen s = 255 -> serial_shown n s = Ok (firstn (Z.to_nat n) s).
Proof.
  intros n s Hn Hs. unfold serial_shown, u64. rewrite Z.mod_small by (change two64 with 18446744073709551616; lia).
  destruct (Z.eqb_spec n 0) as [->|]; [reflexivity|]. destruct (Z.leb_spec n 255); [reflexivity|lia].
Qed.
Print Assumptions C238_shown_partial.
(** A read that fails returns -1, which becomes 2^64-1 characters to show. *)
Theorem C238_failed_read_refuted : forall s, serial_shown (-1) s = UB.
Proof. intros s. reflexivity. Qed.
Print Assumptions C238_failed_read_refuted.
Example C238_case : serial_shown 1 (7 :: repeat 0 254) = Ok [7].
Proof. reflexivity. Qed.
