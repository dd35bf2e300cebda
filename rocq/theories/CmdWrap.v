(** The wrapping of the usage text loses nothing but blanks and keeps to the width. *)
From Verif Require Import Base CmdModel CmdProofs.

Definition solid (s : str) : str := filter (fun c => negb (c =? c_space)) s.
(** There is a place to break among the characters 0 to [n]. *)
Definition breakable (s : str) (n : Z) : Prop := exists k c, 0 <= k <= n /\ zget s k = Some c /\ sep c = true.

Lemma solid_app a b : solid (a ++ b) = solid a ++ solid b.
Proof. apply filter_app. Qed.

Lemma char_at_ok s i : 0 <= i <= Zlen s -> exists c, char_at s i = Ok c /\ ((i = Zlen s /\ c = 0) \/ zget s i = Some c).
Proof.
  intros L. unfold char_at. destruct (Z.eqb_spec i (Zlen s)); [eauto|].
  destruct (zget_some s i ltac:(lia)) as (c & E). rewrite E. eauto.
Qed.

Lemma trim_len_ok s start : 0 <= start -> forall n, (1 <= n)%nat -> start + (Z.of_nat n - 2) <= Zlen s ->
  (0 < start \/ breakable s (Z.of_nat n - 2)) ->
  exists len, trim_len s start n = Ok len /\ len <= Z.of_nat n - 2.
Proof.
  intros S0. induction n as [|n IH]; intros L B H; [lia|]. cbn [trim_len].
  set (len := Z.of_nat (S n) - 2) in *.
  assert (NN : 0 <= len + start).
  { destruct H as [H|(k & c & K & _)]; lia. }
  destruct (char_at_ok s (len + start) ltac:(lia)) as (c & -> & HC). cbn [bind].
  destruct (sep c) eqn:SC; [exists len; split; [easy|lia]|].
  destruct (Z.leb_spec 0 len); [|exists len; split; [easy|lia]].
  destruct (IH ltac:(lia) ltac:(lia)) as (l' & E & LL).
  - destruct H as [H|(k & c' & K & Z1 & Z2)]; [now left|].
    destruct (Z.ltb_spec 0 start); [now left|]. right. exists k, c'. split; [|auto].
    assert (start = 0) by lia. subst start. assert (k <> len); [|lia]. intros ->.
    replace (len + 0) with len in HC by lia. destruct HC as [[-> _]|HC]; [|congruence].
    apply zget_inv in Z1. lia.
  - exists l'. split; [exact E|lia].
Qed.

Lemma skip_spaces_ok s len : forall fuel start, 0 <= start -> 0 <= len -> start + len <= Zlen s ->
  Zlen s - (start + len) < Z.of_nat fuel ->
  exists k, 0 <= k /\ skip_spaces s start len fuel = Ok (start + k) /\ start + k + len <= Zlen s
    /\ forall j, 0 <= j < k -> zget s (start + len + j) = Some c_space.
Proof.
  induction fuel as [|fuel IH]; intros start L0 L1 L2 F; [lia|]. cbn [skip_spaces].
  destruct (char_at_ok s (len + start) ltac:(lia)) as (c & -> & HC). cbn [bind].
  destruct (Z.eqb_spec c c_space) as [->|NC]; cbn [andb].
  - destruct (Z.ltb_spec start (Zlen s)); [|exists 0; repeat split; try lia; f_equal; lia].
    destruct HC as [[_ HC]|HC]; [discriminate|]. pose proof (zget_inv _ _ _ HC).
    destruct (IH (start + 1) ltac:(lia) L1 ltac:(lia) ltac:(lia)) as (k & K0 & E & K1 & K2).
    exists (k + 1). split; [lia|]. split; [rewrite E; f_equal; lia|]. split; [lia|].
    intros j J. destruct (Z.eq_dec j 0) as [->|].
    + replace (start + len + 0) with (len + start) by lia. exact HC.
    + replace (start + len + j) with (start + 1 + len + (j - 1)) by lia. apply K2. lia.
  - exists 0. repeat split; try lia. f_equal. lia.
Qed.

Definition from (s : str) (i : Z) : str := skipn (Z.to_nat i) s.

Lemma from_step s i c : zget s i = Some c -> from s i = c :: from s (i + 1).
Proof.
  intros E. pose proof (zget_inv _ _ _ E). unfold zget in E. destruct (Z.ltb_spec i 0); [lia|]. unfold from.
  replace (Z.to_nat (i + 1)) with (S (Z.to_nat i)) by lia. revert E. generalize (Z.to_nat i). clear.
  intros n. revert s. induction n as [|n IH]; intros s E; destruct s as [|x s]; cbn [nth_error] in E; try discriminate.
  - now injection E as ->.
  - cbn [skipn]. rewrite (IH s E). reflexivity.
Qed.

Lemma solid_spaces s : forall n i, (forall j, 0 <= j < Z.of_nat n -> zget s (i + j) = Some c_space) ->
  solid (from s i) = solid (from s (i + Z.of_nat n)).
Proof.
  induction n as [|n IH]; intros i A; [f_equal; f_equal; lia|].
  rewrite (from_step s i c_space) by (replace i with (i + 0) at 1 by lia; apply A; lia).
  unfold solid at 1. cbn [filter c_space Z.eqb Pos.eqb negb]. fold (solid (from s (i + 1))).
  rewrite (IH (i + 1)); [f_equal; f_equal; lia|]. intros j J. replace (i + 1 + j) with (i + (j + 1)) by lia. apply A. lia.
Qed.

Lemma newline_len_le t k : newline_len t = Some k -> 1 <= k <= Zlen t.
Proof.
  revert k. induction t as [|c t IH]; intros k E; cbn [newline_len] in E; [discriminate|]. rewrite Zlen_cons.
  pose proof (Zlen_nonneg t). destruct (c =? c_nl); [injection E as <-; lia|].
  destruct (newline_len t) as [k'|]; [|discriminate]. injection E as <-. specialize (IH _ eq_refl). lia.
Qed.

Lemma sub_str_len s start len : 0 <= start -> 0 <= len -> start + len <= Zlen s -> Zlen (sub_str s start len) = len.
Proof. intros. unfold sub_str, Zlen in *. rewrite firstn_length, skipn_length. lia. Qed.

Lemma skipn_add {A} (l : list A) : forall a b, skipn (a + b) l = skipn a (skipn b l).
Proof.
  intros a b. revert l. induction b as [|b IH]; intros l; [now rewrite Nat.add_0_r|].
  rewrite Nat.add_succ_r. destruct l as [|x l]; [now rewrite !skipn_nil|]. cbn [skipn]. apply IH.
Qed.

Lemma sub_str_from s start len : 0 <= start -> 0 <= len -> from s start = sub_str s start len ++ from s (start + len).
Proof.
  intros A B. unfold from, sub_str. replace (Z.to_nat (start + len)) with (Z.to_nat len + Z.to_nat start)%nat by lia.
  rewrite skipn_add. now rewrite firstn_skipn.
Qed.

Lemma wrap_step_ok s start al : 0 <= start < Zlen s -> 1 <= al -> (0 < start \/ Zlen s < al \/ breakable s al) ->
  exists line start', wrap_step s start al = Ok (line, start') /\ start < start' <= Zlen s /\ Zlen line <= al
    /\ solid (from s start) = solid line ++ solid (from s start').
Proof.
  intros L A H. unfold wrap_step.
  assert (T : exists len, (if Z.min (Zlen s - start) al =? al
                then trim_len s start (Z.to_nat (Z.min (Zlen s - start) al + 2))
                else Ok (Z.min (Zlen s - start) al)) = Ok len
            /\ 1 <= (if len <=? 0 then al else len) <= al /\ start + (if len <=? 0 then al else len) <= Zlen s).
  { destruct (Z.eqb_spec (Z.min (Zlen s - start) al) al) as [E|E].
    - rewrite E. destruct (trim_len_ok s start ltac:(lia) (Z.to_nat (al + 2)) ltac:(lia) ltac:(lia)) as (len & -> & LL).
      + destruct H as [H|[H|H]]; [now left|lia|]. right. destruct H as (k & c & K & HK). exists k, c. split; [lia|auto].
      + exists len. split; [easy|]. destruct (Z.leb_spec len 0); lia.
    - exists (Z.min (Zlen s - start) al). split; [easy|]. destruct (Z.leb_spec (Z.min (Zlen s - start) al) 0); lia. }
  destruct T as (len & -> & LB & LE). cbn [bind]. set (l1 := if len <=? 0 then al else len) in *.
  assert (T2 : exists l2, match newline_len (sub_str s start l1) with Some k => k | None => l1 end = l2 /\ 1 <= l2 <= l1).
  { destruct (newline_len (sub_str s start l1)) as [k|] eqn:N; eexists; split; eauto; [|lia].
    apply newline_len_le in N. rewrite sub_str_len in N by lia. lia. }
  destruct T2 as (l2 & -> & L2).
  destruct (skip_spaces_ok s l2 (S (length s)) start ltac:(lia) ltac:(lia) ltac:(lia)) as (k & K0 & -> & K1 & K2).
  { unfold Zlen in *. lia. }
  cbn [bind]. exists (sub_str s start l2), (start + k + l2). split; [easy|]. split; [lia|]. split.
  { rewrite sub_str_len by lia. lia. }
  rewrite (sub_str_from s start l2) by lia. rewrite solid_app. f_equal.
  rewrite (solid_spaces s (Z.to_nat k)) by (intros j J; apply K2; lia). f_equal. f_equal. lia.
Qed.

Lemma wrap_loop_ok s offset : 0 <= offset -> forall fuel start al indent,
  0 <= start <= Zlen s -> Zlen s - start <= Z.of_nat fuel ->
  1 <= al -> (start = 0 -> 1 <= al - offset) -> (0 < start \/ Zlen s < al \/ breakable s al) ->
  exists ls, wrap_loop fuel s start al indent offset = Ok ls
    /\ (forall ind line, In (ind, line) ls -> indent <= ind /\ ind + Zlen line <= indent + al)
    /\ solid (concat (map snd ls)) = solid (from s start).
Proof.
  intros O. induction fuel as [|fuel IH]; intros start al indent L F A A2 H; cbn [wrap_loop].
  - destruct (Z.ltb_spec start (Zlen s)); [lia|]. exists []. split; [easy|]. split; [easy|]. cbn.
    unfold from. rewrite skipn_all2; [easy|]. unfold Zlen in *. lia.
  - destruct (Z.ltb_spec start (Zlen s)).
    + destruct (wrap_step_ok s start al ltac:(lia) A H) as (line & start' & -> & L' & LL & S). cbn [bind].
      destruct (Z.eqb_spec start 0) as [->|N0].
      * destruct (IH start' (al - offset) (indent + offset) ltac:(lia) ltac:(lia)) as (ls & -> & Q1 & Q2); try lia.
        cbn [bind]. exists ((indent, line) :: ls). split; [easy|]. split.
        -- intros ind l [E|I]; [injection E as <- <-; lia|]. apply Q1 in I. lia.
        -- cbn [map snd concat]. rewrite solid_app, Q2. now symmetry.
      * destruct (IH start' al indent ltac:(lia) ltac:(lia)) as (ls & -> & Q1 & Q2); try lia.
        cbn [bind]. exists ((indent, line) :: ls). split; [easy|]. split.
        -- intros ind l [E|I]; [injection E as <- <-; lia|]. apply Q1 in I. lia.
        -- cbn [map snd concat]. rewrite solid_app, Q2. now symmetry.
    + exists []. split; [easy|]. split; [easy|]. cbn. unfold from. rewrite skipn_all2; [easy|]. unfold Zlen in *. lia.
Qed.

Lemma space_print_ok s indent offset : 0 <= indent -> 0 <= offset -> indent + offset < 75 ->
  (Zlen s <= 75 - indent \/ breakable s (75 - indent)) ->
  exists ls, space_print s indent offset = Ok ls
    /\ (forall ind line, In (ind, line) ls -> indent <= ind /\ ind + Zlen line <= 75)
    /\ solid (concat (map snd ls)) = solid s.
Proof.
  intros I O B H. unfold space_print. destruct (Z.ltb_spec 75 (Zlen s + indent)).
  - pose proof (Zlen_nonneg s). assert (Zlen s - 0 <= Z.of_nat (length s)) by (unfold Zlen; lia).
    destruct (wrap_loop_ok s offset O (length s) 0 (75 - indent) indent) as (ls & -> & Q1 & Q2); try lia.
    + destruct H as [H|H]; [lia|]. right. now right.
    + exists ls. split; [easy|]. split; [|exact Q2]. intros ind line J. apply Q1 in J. lia.
  - exists [(indent, s)]. split; [easy|]. split.
    + intros ind line [E|[]]. injection E as <- <-. lia.
    + cbn. now rewrite app_nil_r.
Qed.
