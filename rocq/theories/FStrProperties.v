(** Properties of text streams that write to files (C248, C249). *)
From Verif Require Import Base ErrnoModel OErrModel FStrModel.

(** * C248: the file holds what was inserted, and fail() tells whether that went well *)

(** The text of an item. *)
Fixpoint upto_nul (s : list Z) : list Z := match s with [] => [] | c :: tl => if c =? 0 then [] else c :: upto_nul tl end.
Definition text (i : item) : list Z :=
  match i with
  | IChar c => [c] | ICStr t | INum t => upto_nul t | IStr t => t
  | IBool true => [116; 114; 117; 101] | IBool false => [102; 97; 108; 115; 101]
  | IEndl => [10] | IClrscr => repeat 10 80 | IFlush => []
  end.
(** Items for which the device is asked to write nothing. *)
Definition blank (i : item) : bool := match i with ICStr _ | INum _ | IStr _ => match text i with [] => true | _ => false end | _ => false end.

Definition ready (n : nat) (s : fstr) : Prop := of_stream (fs_dev s) = On n /\ fs_answers s = [].
Lemma ready_write b n t s : ready n s -> (b = Debug -> t <> []) ->
  exists s', device_call s (of_write b t (next s) (fs_dev s)) = (Ret 0, s') /\ ready n s' /\ fs_err s' = fs_err s /\
    of_moved (fs_dev s') = of_moved (fs_dev s) ++ map (pair n) t /\ of_name (fs_dev s') = of_name (fs_dev s).
Proof.
  intros [HS HA] HB. destruct s as [er [st nm er1 mv] an]. cbn in HS, HA. subst st an. unfold device_call, of_write. cbn [of_stream fs_dev next fs_answers].
  destruct t as [|c t].
  - unfold fwrite. cbn [map Z.leb Z.compare]. assert (HD : debug_throws b = false) by (destruct b; [reflexivity|reflexivity|destruct (HB eq_refl eq_refl)]).
    rewrite HD. unfold fail. cbn. eexists. split; [reflexivity|]. unfold ready. cbn. rewrite !app_nil_r. repeat split.
  - cbn [fwrite Z.leb Z.compare fst snd]. eexists. split; [reflexivity|]. unfold ready. cbn. repeat split.
Qed.
Lemma ready_open b n s k : ready n s -> when_open b k s = k s.
Proof. intros [HS _]. unfold when_open, of_is_open. rewrite HS. rewrite andb_false_r. reflexivity. Qed.
Lemma ready_flush b n s : ready n s -> exists s', fs_flush b s = (Ret 0, s') /\ ready n s' /\ fs_err s' = fs_err s /\
  of_moved (fs_dev s') = of_moved (fs_dev s) /\ of_name (fs_dev s') = of_name (fs_dev s).
Proof.
  intros H. unfold fs_flush. rewrite (ready_open b n s _ H). destruct H as [HS HA]. destruct s as [er [st nm er1 mv] an]. cbn in HS, HA. subst st an.
  eexists. split; [reflexivity|]. unfold ready. cbn. repeat split.
Qed.
Lemma c_string_upto t : c_string t = upto_nul t.
Proof. induction t as [|c t IH]; [reflexivity|]. cbn. rewrite IH. reflexivity. Qed.
Lemma ready_cstr b n t s : ready n s -> (b = Debug -> upto_nul t <> []) ->
  exists s', put_cstr b t s = (Ret 0, s') /\ ready n s' /\ fs_err s' = fs_err s /\ of_moved (fs_dev s') = of_moved (fs_dev s) ++ map (pair n) (upto_nul t).
Proof.
  intros H HB. unfold put_cstr. rewrite (ready_open b n s _ H), c_string_upto. destruct (ready_write b n (upto_nul t) s H HB) as (s' & H1 & H2 & H3 & H4 & _).
  exists s'. repeat split; assumption || apply H2.
Qed.
Lemma ready_newlines b n k : forall s, ready n s ->
  exists s', newlines b k s = (Ret 0, s') /\ ready n s' /\ fs_err s' = fs_err s /\ of_moved (fs_dev s') = of_moved (fs_dev s) ++ map (pair n) (repeat 10 k).
Proof.
  induction k as [|k IH]; intros s H.
  - exists s. cbn. rewrite app_nil_r. repeat split; apply H.
  - cbn [newlines]. destruct (ready_cstr b n [10] s H) as (s1 & H1 & H2 & H3 & H4); [discriminate|]. rewrite H1. unfold and_then. cbn [fst snd].
    destruct (IH s1 H2) as (s2 & K1 & K2 & K3 & K4). exists s2. split; [exact K1|]. split; [exact K2|]. split; [congruence|].
    rewrite K4, H4, <- app_assoc. reflexivity.
Qed.
Lemma ready_put b n i s : ready n s -> (b = Debug -> blank i = false) ->
  exists s', put b i s = (Ret 0, s') /\ ready n s' /\ fs_err s' = fs_err s /\ of_moved (fs_dev s') = of_moved (fs_dev s) ++ map (pair n) (text i).
Proof.
  intros H HB.
  assert (N : forall t, text i = t -> (match t with [] => true | _ => false end) = blank i -> b = Debug -> t <> []).
  { intros t HT HM Hb HE. rewrite HE in HM. rewrite (HB Hb) in HM. discriminate. }
  destruct i as [c|t|t|t|v| | |]; cbn [put].
  - unfold put_char. rewrite (ready_open b n s _ H). destruct (ready_write b n [c] s H) as (s' & H1 & H2 & H3 & H4 & _); [discriminate|]. exists s'. repeat split; assumption || apply H2.
  - apply ready_cstr; [exact H|]. apply N; reflexivity.
  - unfold put_str. rewrite (ready_open b n s _ H). destruct (ready_write b n t s H) as (s' & H1 & H2 & H3 & H4 & _); [apply N; reflexivity|]. exists s'. repeat split; assumption || apply H2.
  - unfold put_num. rewrite (ready_open b n s _ H). apply ready_cstr; [exact H|]. apply N; reflexivity.
  - unfold put_bool. rewrite (ready_open b n s _ H).
    destruct (ready_cstr b n (if v then [116; 114; 117; 101] else [102; 97; 108; 115; 101]) s H) as (s' & H1 & H2 & H3 & H4); [destruct v; discriminate|].
    exists s'. split; [exact H1|]. split; [exact H2|]. split; [exact H3|]. rewrite H4. destruct v; reflexivity.
  - unfold put_endl. destruct (ready_cstr b n [10] s H) as (s1 & H1 & H2 & H3 & H4); [discriminate|]. rewrite H1. unfold and_then. cbn [fst snd].
    destruct (ready_flush b n s1 H2) as (s2 & K1 & K2 & K3 & K4 & _). exists s2. split; [exact K1|]. split; [exact K2|]. split; [congruence|]. rewrite K4, H4. reflexivity.
  - exact (ready_newlines b n 80 s H).
  - destruct (ready_flush b n s H) as (s2 & K1 & K2 & K3 & K4 & _). exists s2. split; [exact K1|]. split; [exact K2|]. split; [exact K3|].
    rewrite K4. cbn. rewrite app_nil_r. reflexivity.
Qed.
(** While the system takes everything, the file holds exactly the texts of the items, nothing is thrown, and fail() is false; in debug builds no
    empty text may be inserted. *)
Theorem C248_text_partial : forall b name l, (b = Debug -> Forall (fun i => blank i = false) l) -> exists s s',
  ofile_stream b name Opens [] = Made s /\ puts b l s = (Ret 0, s') /\ fs_fail s' = false /\
  of_moved (fs_dev s') = map (pair name) (concat (map text l)).
Proof.
  intros b name l HB. eexists. 
  assert (G : forall l s, ready name s -> (b = Debug -> Forall (fun i => blank i = false) l) ->
    exists s', puts b l s = (Ret 0, s') /\ fs_err s' = fs_err s /\ of_moved (fs_dev s') = of_moved (fs_dev s) ++ map (pair name) (concat (map text l))).
  { clear. induction l as [|i l IH]; intros s H HB.
    - exists s. cbn. rewrite app_nil_r. repeat split.
    - cbn [puts]. destruct (ready_put b name i s H) as (s1 & H1 & H2 & H3 & H4); [intros E; specialize (HB E); inversion HB; assumption|].
      rewrite H1. unfold and_then. cbn [fst snd]. destruct (IH s1 H2) as (s2 & K1 & K2 & K3); [intros E; specialize (HB E); inversion HB; assumption|].
      exists s2. split; [exact K1|]. split; [congruence|]. rewrite K3, H4. cbn [map concat]. rewrite map_app, app_assoc. reflexivity. }
  destruct (G l (mkFS None (mkOF (On name) name None []) [])) as (s' & H1 & H2 & H3); [split; reflexivity|exact HB|].
  exists s'. split; [reflexivity|]. split; [exact H1|]. split; [unfold fs_fail; rewrite H2; reflexivity|exact H3].
Qed.
Print Assumptions C248_text_partial.
Example C248_case : Forall (fun i => blank i = false) [IStr [65; 0; 66]; INum [52; 50]; IBool true; IEndl; IClrscr; IFlush].
Proof. repeat constructor. Qed.

(** base_text_stream.hpp:68-76 says that fail() is true if the last operation, "read/write", failed.  No insertion changes it, whatever the device does. *)
Lemma err_kept b i s : fs_err (snd (put b i s)) = fs_err s.
Proof.
  assert (W : forall k s, (forall s, fs_err (snd (k s)) = fs_err s) -> fs_err (snd (when_open b k s)) = fs_err s).
  { intros k s0 HK. unfold when_open. destruct (debug_throws b && negb (of_is_open (fs_dev s0))); [reflexivity|apply HK]. }
  assert (C : forall t s, fs_err (snd (put_cstr b t s)) = fs_err s) by (intros t s0; apply W; reflexivity).
  assert (F : forall s, fs_err (snd (fs_flush b s)) = fs_err s) by (intros s0; apply W; reflexivity).
  destruct i as [c|t|t|t|v| | |]; cbn [put]; try (apply W; (reflexivity || apply C)).
  - unfold put_endl, and_then. destruct (put_cstr b [10] s) as [o s1] eqn:E. assert (H := C [10] s). rewrite E in H. cbn [fst snd] in *.
    destruct o; [rewrite F; exact H|exact H|exact H].
  - unfold put_clrscr. generalize 80%nat. intros n. revert s. induction n as [|n IH]; intros s; [reflexivity|]. cbn [newlines]. unfold and_then.
    destruct (put_cstr b [10] s) as [o s1] eqn:E. assert (H := C [10] s). rewrite E in H. cbn [fst snd] in *. destruct o; [rewrite IH; exact H|exact H|exact H].
Qed.
Theorem C248_fail_refuted :
  (forall b l s, fs_status (snd (puts b l s)) = fs_status s /\ fs_fail (snd (puts b l s)) = fs_fail s) /\
  (forall name t, t <> [] -> exists s s', ofile_stream Release name Opens [Some 0%nat] = Made s /\ puts Release [IStr t] s = (Ret 0, s') /\
     fs_fail s' = false /\ of_moved (fs_dev s') = []).
Proof.
  split.
  - intros b l s. assert (G : fs_err (snd (puts b l s)) = fs_err s).
    { revert s. induction l as [|i l IH]; intros s; [reflexivity|]. cbn [puts]. unfold and_then. assert (H := err_kept b i s).
      destruct (put b i s) as [o s1]. cbn [fst snd] in *. destruct o; [rewrite IH; exact H|exact H|exact H]. }
    unfold fs_status, fs_fail. rewrite G. split; reflexivity.
  - intros name t HT. destruct t as [|c t]; [congruence|]. eexists _, _. split; [reflexivity|]. split; [reflexivity|]. split; reflexivity.
Qed.
Print Assumptions C248_fail_refuted.
(** A write that is cut short does not stop the ones after it: the texts that follow reach the file, after the part that was written. *)
Theorem C248_after_cut_refuted : forall n er t u k, t <> [] -> u <> [] -> (k < length t)%nat ->
  of_moved (fs_dev (snd (puts Release [IStr t; IStr u] (mkFS er (mkOF (On n) n None []) [Some k])))) = map (fun c => (n, c)) (firstn k t ++ u).
Proof.
  intros n er t u k T U K. destruct t as [|c t]; [congruence|]. destruct u as [|d u]; [congruence|]. 
  unfold puts, and_then, put, put_str, when_open, device_call, of_write, next. cbn -[firstn].
  rewrite map_app. cbn [length] in K. replace (Nat.min k (length t - 0)) with k by lia. reflexivity.
Qed.
Print Assumptions C248_after_cut_refuted.
(** Nor does it tell of a flush the system refuses, alone or at the end of a line: that throws in debug builds and is silent in the others. *)
Definition refused (b : build) : outcome := match b with Debug => Thrown UnknownError | _ => Ret 0 end.
Theorem C248_flush_refuted : forall b n er t k rest,
  let s := mkFS er (mkOF (On n) n None t) (Some k :: rest) in let s2 := mkFS er (mkOF (On n) n None t) (None :: Some k :: rest) in
  fst (put b IFlush s) = refused b /\ fs_fail (snd (put b IFlush s)) = fs_fail s /\ of_moved (fs_dev (snd (put b IFlush s))) = t /\
  fst (put b IEndl s2) = refused b /\ fs_fail (snd (put b IEndl s2)) = fs_fail s2 /\ of_moved (fs_dev (snd (put b IEndl s2))) = t ++ [(n, 10)].
Proof. intros b n er t k rest. cbv zeta. destruct b; repeat split. Qed.
Print Assumptions C248_flush_refuted.
(** In debug builds inserting an empty text into an open file throws. *)
Theorem C248_empty_refuted : forall n s, of_stream (fs_dev s) = On n ->
  fst (put Debug (IStr []) s) = Thrown WriteError /\ fst (put Debug (ICStr []) s) = Thrown WriteError.
Proof.
  intros n s HS. cbn [put]. unfold put_str, put_cstr, when_open, of_is_open. rewrite HS. cbn [negb andb debug_throws].
  unfold device_call, of_write. rewrite HS. cbn. split; reflexivity.
Qed.
Print Assumptions C248_empty_refuted.
(** Nothing reaches a file that is not open: debug builds throw, the others go on silently. *)
Theorem C248_closed : forall b l s, of_stream (fs_dev s) = Null -> of_moved (fs_dev (snd (puts b l s))) = of_moved (fs_dev s).
Proof.
  intros b l s HS.
  assert (P : forall i s, of_stream (fs_dev s) = Null -> of_stream (fs_dev (snd (put b i s))) = Null /\ of_moved (fs_dev (snd (put b i s))) = of_moved (fs_dev s)).
  { clear. intros i s HS.
    set (Q := fun (s : fstr) (r : outcome * fstr) => of_stream (fs_dev (snd r)) = Null /\ of_moved (fs_dev (snd r)) = of_moved (fs_dev s)).
    assert (D : forall t s, of_stream (fs_dev s) = Null -> Q s (device_call s (of_write b t (next s) (fs_dev s)))).
    { intros t s0 H0. unfold Q, device_call, of_write. rewrite H0. cbn [fs_dev snd]. unfold fail. destruct (debug_throws b); split; try reflexivity; exact H0. }
    assert (W : forall k s, of_stream (fs_dev s) = Null -> Q s (k s) -> Q s (when_open b k s)).
    { intros k s0 H0 HK. unfold when_open. destruct (debug_throws b && negb (of_is_open (fs_dev s0))); [split; [exact H0|reflexivity]|exact HK]. }
    assert (C : forall t s, of_stream (fs_dev s) = Null -> Q s (put_cstr b t s)) by (intros t s0 H0; apply W; [exact H0|apply D; exact H0]).
    assert (F : forall s, of_stream (fs_dev s) = Null -> Q s (fs_flush b s)).
    { intros s0 H0. apply W; [exact H0|]. unfold Q, device_call, of_flush. rewrite H0. cbn [fs_dev snd].
      destruct (next s0); unfold fail; [destruct (debug_throws b)|]; split; try reflexivity; exact H0. }
    change (Q s (put b i s)). destruct i as [c|t|t|t|v| | |]; cbn [put].
    - apply W; [exact HS|]. apply D; exact HS.
    - apply C; exact HS.
    - apply W; [exact HS|]. apply D; exact HS.
    - apply W; [exact HS|]. apply C; exact HS.
    - apply W; [exact HS|]. apply C; exact HS.
    - unfold put_endl, and_then. assert (H := C [10] s HS). destruct (put_cstr b [10] s) as [o s1]. unfold Q in *. cbn [fst snd] in *. destruct H as [H1 H2].
      destruct o; [|split; [exact H1|exact H2]|split; [exact H1|exact H2]]. destruct (F s1 H1) as [K1 K2]. split; [exact K1|congruence].
    - unfold put_clrscr. clear F. generalize 80%nat. intros n. revert s HS. induction n as [|n IH]; intros s HS; [split; [exact HS|reflexivity]|].
      cbn [newlines]. unfold and_then. assert (H := C [10] s HS). destruct (put_cstr b [10] s) as [o s1]. unfold Q in *. cbn [fst snd] in *. destruct H as [H1 H2].
      destruct o; [|split; [exact H1|exact H2]|split; [exact H1|exact H2]]. destruct (IH s1 H1) as [K1 K2]. split; [exact K1|congruence].
    - apply F; exact HS. }
  revert s HS. induction l as [|i l IH]; intros s HS; [reflexivity|]. cbn [puts]. unfold and_then. destruct (P i s HS) as [H1 H2].
  destruct (put b i s) as [o s1]. cbn [fst snd] in *. destruct o; [|exact H2|exact H2]. rewrite (IH s1 H1). exact H2.
Qed.
Print Assumptions C248_closed.

(** * C249: a stream whose device could not be opened says so *)

(** File streams: without exceptions fail() is true exactly if the file could not be opened, with the error of the device; otherwise the constructor
    throws exactly then. *)
Theorem C249_file : forall b name a an,
  match ofile_stream b name a an with
  | NotMade x => b <> NoExceptions /\ exists e, (a = OpenFails e \/ a = StreamFails e) /\ x = open_exception e
  | Made s =>
    match a with
    | Opens => fs_fail s = false /\ of_is_open (fs_dev s) = true
    | OpenFails e | StreamFails e => b = NoExceptions /\ fs_fail s = true /\ fs_status s = Some (open_error e) /\ of_is_open (fs_dev s) = false
    end
  end.
Proof.
  intros b name a an. unfold ofile_stream, of_open, fail. destruct a as [e|e|]; destruct b; cbn; try (split; [discriminate|exists e; split; [auto|reflexivity]]); repeat split.
Qed.
Print Assumptions C249_file.
(** Other streams except those of servers. *)
Theorem C249_others_partial : forall b x e,
  checked_ctor b Opened = inl None /\ server_ctor b Opened = inl None /\
  checked_ctor b (Fails x e) = match b with NoExceptions => inl (Some e) | _ => inr x end /\
  (b <> NoExceptions -> server_ctor b (Fails x e) = inr x).
Proof. intros b x e. destruct b; repeat split; congruence. Qed.
Print Assumptions C249_others_partial.
(** Serial ports whose device file stays. *)
Theorem C249_serial_partial : forall b a, match serial_ctor b a true with
  | inl (e, o) => (e = None <-> a = Opened) /\ (o = true <-> a = Opened) /\ (a <> Opened -> b = NoExceptions)
  | inr x => b <> NoExceptions /\ exists e, a = Fails x e
  end.
Proof. intros b a. destruct a as [x e|], b; cbn; try (split; [discriminate|exists e; reflexivity]); repeat split; congruence. Qed.
Print Assumptions C249_serial_partial.
(** A serial port that vanishes during construction is not open, and fail() is false. *)
Theorem C249_serial_refuted : forall b, serial_ctor b Opened false = inl (None, false).
Proof. reflexivity. Qed.
Print Assumptions C249_serial_refuted.
(** A server stream without exceptions does not tell. *)
Theorem C249_server_refuted : forall x e, server_ctor NoExceptions (Fails x e) = inl None.
Proof. reflexivity. Qed.
Print Assumptions C249_server_refuted.
Example C249_case : exists s, ofile_stream NoExceptions 3 (OpenFails 13) [] = Made s /\ fs_status s = Some PermissionsError.
Proof. eexists. split; reflexivity. Qed.
