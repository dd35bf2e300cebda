(** Lemmas on copied formatters. *)
From Verif Require Import Base StreamModel FmtModel FmtProofs FCopyModel.
Open Scope Z_scope.

(** * The specification: formatters are values *)

(** A program with formatters. A copy is used for printing at once. *)
Inductive fop :=
| OMake (w p : Z) (a : align)
| OCopyShow (i : nat) (v : ftext)          (* Format<double> c(f_i); stream << c(v) *)
| OAssignShow (i j : nat) (v : ftext)      (* f_i = f_j; stream << f_i(v) *)
| ODestroy (i : nat)
| OWidth (i : nat) (w : Z) | OPrec (i : nat) (p : Z) | OAlign (i : nat) (a : align)
| OShow (i : nat) (v : ftext) | OShowTmp (i : nat) (v : ftext) (p w : Z).
Definition show_on (debug : bool) (h : heap) (i : nat) (v : ftext) : res (heap * list (list Z)) :=
  h1 <- call h i v ;; r <- print debug h1 i ;; Ok (fst r, [snd r]).
Definition fstep (debug : bool) (h : heap) (o : fop) : res (heap * list (list Z)) :=
  match o with
  | OMake w p a => Ok (make h w p a, [])
  | OCopyShow i v => h1 <- copy h i ;; show_on debug h1 (length h) v
  | OAssignShow i j v => h1 <- assign h i j ;; show_on debug h1 i v
  | ODestroy i => h1 <- destroy h i ;; Ok (h1, [])
  | OWidth i w => h1 <- set_width h i w ;; Ok (h1, [])
  | OPrec i p => h1 <- set_prec h i p ;; Ok (h1, [])
  | OAlign i a => h1 <- set_align h i a ;; Ok (h1, [])
  | OShow i v => show_on debug h i v
  | OShowTmp i v p w => h1 <- call_tmp h i v p w ;; r <- print debug h1 i ;; Ok (fst r, [snd r])
  end.
Fixpoint frun (debug : bool) (h : heap) (l : list fop) : res (list (list Z)) :=
  match l with [] => Ok [] | o :: tl => r <- fstep debug h o ;; t <- frun debug (fst r) tl ;; Ok (snd r ++ t) end.

(** Values: width, precision and alignment of every formatter that is alive. *)
Record style := mkStyle { y_w : Z; y_p : Z; y_a : align }.
Definition styles := list (option style).
Definition look (s : styles) (i : nat) : res style := match nth_error s i with Some (Some y) => Ok y | _ => UB end.
Fixpoint change (s : styles) (i : nat) (x : option style) : styles :=
  match s, i with [], _ => [] | _ :: tl, O => x :: tl | y :: tl, S j => y :: change tl j x end.
Definition text_in (y : style) (v : ftext) : res (list Z) := let s := firstn 29 (v (Z.min (y_p y) 20)) in lay (Some (y_a y)) (y_w y) s (Zlen s).
Definition vstep (s : styles) (o : fop) : res (styles * list (list Z)) :=
  match o with
  | OMake w p a => Ok (s ++ [Some (mkStyle w p a)], [])
  | OCopyShow i v => y <- look s i ;; t <- text_in y v ;; Ok (s ++ [Some y], [t])
  | OAssignShow i j v => _ <- look s i ;; y <- look s j ;; t <- text_in y v ;; Ok (change s i (Some y), [t])
  | ODestroy i => _ <- look s i ;; Ok (change s i None, [])
  | OWidth i w => y <- look s i ;; Ok (change s i (Some (mkStyle w (y_p y) (y_a y))), [])
  | OPrec i p => y <- look s i ;; Ok (change s i (Some (mkStyle (y_w y) p (y_a y))), [])
  | OAlign i a => y <- look s i ;; Ok (change s i (Some (mkStyle (y_w y) (y_p y) a)), [])
  | OShow i v => y <- look s i ;; t <- text_in y v ;; Ok (s, [t])
  | OShowTmp i v p w => y <- look s i ;; t <- text_in (mkStyle w p (y_a y)) v ;; Ok (s, [t])
  end.
Fixpoint vrun (s : styles) (l : list fop) : res (list (list Z)) :=
  match l with [] => Ok [] | o :: tl => r <- vstep s o ;; t <- vrun (fst r) tl ;; Ok (snd r ++ t) end.
Definition op_ok (o : fop) : Prop :=
  match o with
  | OMake _ p a => a <> NoAlign
  | OAlign _ a => a <> NoAlign
  | OPrec _ p | OShowTmp _ _ p _ => 0 <= p < 2 ^ 31
  | _ => True
  end.

(** * Heaps without pointers to other formatters *)

Definition fits (i : nat) (o : option obj) (y : option style) : Prop :=
  match o, y with
  | None, None => True
  | Some o, Some y => at_w o = (i, false) /\ at_p o = (i, false) /\ at_a o = (i, false) /\
      s_w (o_prm o) = y_w y /\ s_p (o_prm o) = y_p y /\ s_a (o_prm o) = y_a y /\ y_a y <> NoAlign
  | _, _ => False
  end.
Definition agree (h : heap) (s : styles) : Prop := length h = length s /\ forall i o y, nth_error h i = Some o -> nth_error s i = Some y -> fits i o y.
Lemma agree_get h s i : agree h s ->
  match look s i with Ok y => exists o, get h i = Ok o /\ fits i (Some o) (Some y) | Throw e => False | UB => get h i = UB end.
Proof.
  intros [L A]. unfold look, get. destruct (nth_error s i) as [y|] eqn:S.
  - destruct (nth_error h i) as [o|] eqn:H; [|apply nth_error_None in H; assert (i < length s)%nat by (apply nth_error_Some; congruence); lia].
    specialize (A i o y H S). destruct y as [y|], o as [o|]; cbn in A; try contradiction; [|reflexivity]. eauto.
  - apply nth_error_None in S. destruct (nth_error h i) as [o|] eqn:H; [|reflexivity]. assert (i < length h)%nat by (apply nth_error_Some; congruence). lia.
Qed.
Lemma upd_length h : forall i x, length (upd h i x) = length h.
Proof. induction h as [|y h IH]; intros [|i] x; cbn; auto. Qed.
Lemma change_length s : forall i x, length (change s i x) = length s.
Proof. induction s as [|y s IH]; intros [|i] x; cbn; auto. Qed.
Lemma nth_upd h : forall i j x, (i < length h)%nat -> nth_error (upd h i x) j = if Nat.eqb i j then Some x else nth_error h j.
Proof. induction h as [|y h IH]; intros [|i] [|j] x L; cbn in *; try lia; auto. apply IH. lia. Qed.
Lemma nth_change s : forall i j x, (i < length s)%nat -> nth_error (change s i x) j = if Nat.eqb i j then Some x else nth_error s j.
Proof. induction s as [|y s IH]; intros [|i] [|j] x L; cbn in *; try lia; auto. apply IH. lia. Qed.
Lemma get_lt h i o : get h i = Ok o -> (i < length h)%nat.
Proof. unfold get. intros H. apply nth_error_Some. destruct (nth_error h i); congruence. Qed.
Lemma get_put h i o : (i < length h)%nat -> get (put h i o) i = Ok o.
Proof. intros L. unfold get, put. rewrite nth_upd by exact L. now rewrite Nat.eqb_refl. Qed.
Lemma put_put h : forall i o o', put (put h i o) i o' = put h i o'.
Proof. unfold put. induction h as [|y h IH]; intros [|i] o o'; cbn; auto. now rewrite IH. Qed.
Lemma put_length h i o : length (put h i o) = length h.
Proof. apply upd_length. Qed.
Lemma agree_put h s i o y : agree h s -> (i < length h)%nat -> fits i (Some o) (Some y) -> agree (put h i o) (change s i (Some y)).
Proof.
  intros [L A] I F. split; [unfold put; now rewrite upd_length, change_length|]. intros j o' y' H1 H2. unfold put in H1. rewrite nth_upd in H1 by exact I. rewrite nth_change in H2 by lia.
  destruct (Nat.eqb i j) eqn:E; [|eauto]. apply Nat.eqb_eq in E. subst j. injection H1 as <-. injection H2 as <-. exact F.
Qed.
Lemma change_same s : forall i y, nth_error s i = Some (Some y) -> change s i (Some y) = s.
Proof. induction s as [|x s IH]; intros [|i] y H; cbn in *; try discriminate; [congruence|]. now rewrite IH. Qed.
Lemma look_nth s i y : look s i = Ok y -> nth_error s i = Some (Some y).
Proof. unfold look. destruct (nth_error s i) as [[x|]|]; congruence. Qed.
Lemma agree_app h s o y : agree h s -> fits (length h) (Some o) (Some y) -> agree (h ++ [Some o]) (s ++ [Some y]).
Proof.
  intros [L A] F. split; [rewrite !app_length; cbn; lia|]. intros i o' y' H1 H2. destruct (Nat.lt_ge_cases i (length h)) as [I|I].
  - rewrite nth_error_app1 in H1, H2 by lia. eauto.
  - rewrite nth_error_app2 in H1, H2 by lia. destruct (i - length h)%nat as [|k] eqn:E.
    + replace (i - length s)%nat with O in H2 by lia. cbn in H1, H2. injection H1 as <-. injection H2 as <-. now replace i with (length h) by lia.
    + cbn in H1. now destruct k.
Qed.
Lemma fits_prm i o o' y : fits i (Some o) (Some y) -> o_prm o' = o_prm o -> at_w o' = at_w o -> at_p o' = at_p o -> at_a o' = at_a o -> fits i (Some o') (Some y).
Proof. cbn. intros F -> -> -> ->. exact F. Qed.

(** Printing through pointers that are those of formatter j. *)
Lemma print_at debug h i o j oj y : get h i = Ok o -> get h j = Ok oj -> o_ready o = true -> at_w o = (j, false) -> at_p o = (j, false) -> at_a o = (j, false) ->
  s_w (o_prm oj) = y_w y -> s_p (o_prm oj) = y_p y -> s_a (o_prm oj) = y_a y ->
  print debug h i = (t <- text_in y (o_val o) ;; Ok (put h i (mkObj (o_prm o) (o_tmp o) (i, false) (i, false) (i, false) false (o_val o)), t)).
Proof.
  intros G GJ R W P A E1 E2 E3. unfold print. rewrite G. cbn [bind]. rewrite R. cbn [negb]. rewrite W, P, A. unfold read. cbn [fst snd]. rewrite GJ. cbn [bind group]. rewrite E1, E2, E3. unfold text_in.
  destruct (lay _ _ _ _) as [t|e|]; cbn [bind]; [|reflexivity|reflexivity]. destruct (Nat.eqb j i) eqn:E; [|reflexivity]. apply Nat.eqb_eq in E. now subst j.
Qed.
Lemma show_own debug h s i v : agree h s ->
  match (y <- look s i ;; t <- text_in y v ;; Ok [t]) with
  | Ok t => exists h', show_on debug h i v = Ok (h', t) /\ agree h' s
  | Throw e => show_on debug h i v = Throw e
  | UB => show_on debug h i v = UB
  end.
Proof.
  intros A. pose proof (agree_get h s i A) as G. destruct (look s i) as [y|e|] eqn:L; cbn [bind]; [|contradiction|unfold show_on, call; now rewrite G].
  destruct G as (o & G & F). pose proof (get_lt _ _ _ G) as I. unfold show_on, call. rewrite G. cbn [bind]. destruct F as (F1 & F2 & F3 & F4 & F5 & F6 & F7).
  set (o1 := mkObj (o_prm o) (o_tmp o) (at_w o) (at_p o) (at_a o) true v).
  rewrite (print_at debug (put h i o1) i o1 i o1 y) by (try (apply get_put; exact I); auto). destruct (text_in y (o_val o1)) as [t|e|] eqn:T; change (o_val o1) with v in T; rewrite T; cbn [bind]; [|reflexivity|reflexivity].
  rewrite put_put. eexists. split; [reflexivity|]. rewrite <- (change_same s i y (look_nth _ _ _ L)). apply agree_put; [exact A|exact I|]. cbn. auto 10.
Qed.
Lemma get_put_other h i j o : (i < length h)%nat -> i <> j -> get (put h i o) j = get h j.
Proof. intros L N. unfold get, put. rewrite nth_upd by exact L. now rewrite (proj2 (Nat.eqb_neq i j) N). Qed.
Lemma write_own h i o b f : get h i = Ok o -> write h (i, b) f = Ok (put h i (with_group o b (f (group o b)))).
Proof. intros G. unfold write. cbn [fst snd]. rewrite G. reflexivity. Qed.
Lemma read_own h i o b : get h i = Ok o -> read h (i, b) = Ok (group o b).
Proof. intros G. unfold read. cbn [fst snd]. rewrite G. reflexivity. Qed.
Lemma wrap_prec p : 0 <= p < 2 ^ 31 -> wrap_s 32 p = p.
Proof. exact (wrap32_id p). Qed.
Lemma is_none_not a : a <> NoAlign -> is_none a = false.
Proof. destruct a; cbn; congruence. Qed.
Lemma set_width_own h i o b w : get h i = Ok o -> at_w o = (i, b) -> at_a o = (i, false) -> s_a (o_prm o) <> NoAlign ->
  set_width h i w = Ok (put h i (with_group o b (in_w w (group o b)))).
Proof.
  intros G W A N. pose proof (get_lt _ _ _ G) as I. unfold set_width. rewrite G. cbn [bind]. rewrite W, A, (write_own h i o b _ G). cbn [bind].
  destruct (w >? 0); [|reflexivity]. rewrite (read_own _ i _ false (get_put h i _ I)). cbn [bind]. destruct b; cbn [group with_group o_prm in_w s_a]; now rewrite (is_none_not _ N).
Qed.
Lemma set_prec_own h i o b p : get h i = Ok o -> at_p o = (i, b) -> set_prec h i p = Ok (put h i (with_group o b (in_p (wrap_s 32 p) (group o b)))).
Proof. intros G P. unfold set_prec. rewrite G. cbn [bind]. rewrite P, (write_own h i o b _ G). reflexivity. Qed.
Lemma set_align_own h i o b a : get h i = Ok o -> at_a o = (i, b) -> a <> NoAlign -> set_align h i a = Ok (put h i (with_group o b (in_a a (group o b)))).
Proof. intros G P N. unfold set_align. rewrite G. cbn [bind]. rewrite P, (write_own h i o b _ G). cbn [bind]. now rewrite (is_none_not _ N). Qed.
Lemma call_tmp_own h i o v p w : get h i = Ok o -> at_w o = (i, false) -> at_p o = (i, false) -> at_a o = (i, false) -> s_a (o_prm o) <> NoAlign ->
  call_tmp h i v p w = Ok (put h i (mkObj (o_prm o) (mkSets w (wrap_s 32 p) (s_a (o_prm o))) (i, true) (i, true) (i, true) true v)).
Proof.
  intros G W P A N. pose proof (get_lt _ _ _ G) as I. destruct o as [[pw pp pa] [tw tp ta] aw ap aa rd vl]. cbn [at_w at_p at_a o_prm s_a] in W, P, A, N. subst.
  unfold call_tmp, aim. rewrite G. cbn [bind at_w at_p at_a o_prm o_tmp o_ready o_val].
  erewrite set_width_own; [|apply get_put; exact I|reflexivity|reflexivity|exact N]. cbn [bind]. rewrite put_put, get_put by exact I. cbn [bind with_group group in_w at_w at_p at_a o_prm o_tmp o_ready o_val s_p s_a]. rewrite put_put.
  erewrite set_prec_own; [|apply get_put; exact I|reflexivity]. cbn [bind]. rewrite put_put, get_put by exact I. cbn [bind with_group group in_p at_w at_p at_a o_prm o_tmp o_ready o_val s_w s_a]. rewrite put_put.
  rewrite get_put by exact I. cbn [bind o_prm s_a].
  erewrite set_align_own; [|apply get_put; exact I|reflexivity|exact N]. cbn [bind]. unfold call. rewrite put_put, get_put by exact I. cbn [bind with_group group in_a at_w at_p at_a o_prm o_tmp o_ready o_val s_w s_p]. now rewrite put_put.
Qed.
Lemma print_tmp debug h i o y : get h i = Ok o -> o_ready o = true -> at_w o = (i, true) -> at_p o = (i, true) -> at_a o = (i, true) ->
  s_w (o_tmp o) = y_w y -> s_p (o_tmp o) = y_p y -> s_a (o_tmp o) = y_a y ->
  print debug h i = (t <- text_in y (o_val o) ;; Ok (put h i (mkObj (o_prm o) (o_tmp o) (i, false) (i, false) (i, false) false (o_val o)), t)).
Proof.
  intros G R W P A E1 E2 E3. unfold print. rewrite G. cbn [bind]. rewrite R. cbn [negb]. rewrite W, P, A. unfold read. cbn [fst snd]. rewrite G. cbn [bind group]. rewrite E1, E2, E3. unfold text_in.
  destruct (lay _ _ _ _) as [t|e|]; cbn [bind]; [|reflexivity|reflexivity]. now rewrite Nat.eqb_refl.
Qed.

Lemma fstep_value debug h s o : agree h s -> op_ok o ->
  match vstep s o with
  | Ok r => exists h', fstep debug h o = Ok (h', snd r) /\ agree h' (fst r)
  | Throw e => fstep debug h o = Throw e
  | UB => fstep debug h o = UB
  end.
Proof.
  intros A K. destruct o as [w p a|i v|i j v|i|i w|i p|i a|i v|i v p w]; cbn [vstep fstep op_ok] in *.
  - eexists. split; [reflexivity|]. apply agree_app; [exact A|]. cbn. auto 10.
  - pose proof (agree_get h s i A) as G. destruct (look s i) as [y|e|]; cbn [bind]; [|contradiction|unfold copy; now rewrite G].
    destruct G as (o & G & F). pose proof (get_lt _ _ _ G) as I. destruct F as (F1 & F2 & F3 & F4 & F5 & F6 & F7). unfold copy. rewrite G. cbn [bind].
    assert (GN : get (h ++ [Some o]) (length h) = Ok o) by (unfold get; rewrite nth_error_app2, Nat.sub_diag by lia; reflexivity).
    assert (GI : get (h ++ [Some o]) i = Ok o) by (unfold get; rewrite nth_error_app1 by lia; exact G).
    assert (LN : (length h < length (h ++ [Some o]))%nat) by (rewrite app_length; cbn; lia).
    unfold show_on, call. rewrite GN. cbn [bind]. set (o1 := mkObj (o_prm o) (o_tmp o) (at_w o) (at_p o) (at_a o) true v).
    rewrite (print_at debug (put (h ++ [Some o]) (length h) o1) (length h) o1 i o y); [|now apply get_put|rewrite get_put_other by lia; exact GI|reflexivity|exact F1|exact F2|exact F3|exact F4|exact F5|exact F6].
    change (o_val o1) with v. destruct (text_in y v) as [t|e|]; cbn [bind fst snd]; [|reflexivity|reflexivity]. rewrite put_put. eexists. split; [reflexivity|].
    assert (PA : forall x, put (h ++ [Some o]) (length h) x = h ++ [Some x]).
    { intros x. clear. unfold put. induction h as [|z h IH]; [reflexivity|]. cbn. now rewrite IH. }
    rewrite PA. apply agree_app; [exact A|]. cbn. auto 10.
  - pose proof (agree_get h s i A) as G. destruct (look s i) as [yi|e|] eqn:LI; cbn [bind]; [|contradiction|unfold assign; now rewrite G]. destruct G as (oi & G & F).
    pose proof (agree_get h s j A) as GJ. unfold assign. rewrite G. cbn [bind]. destruct (look s j) as [y|e|] eqn:LJ; cbn [bind]; [|contradiction|now rewrite GJ]. destruct GJ as (o & GJ & FJ). rewrite GJ. cbn [bind].
    pose proof (get_lt _ _ _ G) as I. destruct FJ as (F1 & F2 & F3 & F4 & F5 & F6 & F7). unfold show_on, call. rewrite get_put by exact I. cbn [bind]. rewrite put_put.
    set (o1 := mkObj (o_prm o) (o_tmp o) (at_w o) (at_p o) (at_a o) true v).
    assert (GG : exists oj, get (put h i o1) j = Ok oj /\ o_prm oj = o_prm o).
    { destruct (Nat.eq_dec i j) as [<-|N]; [exists o1; split; [now apply get_put|reflexivity]|exists o; split; [now rewrite get_put_other|reflexivity]]. }
    destruct GG as (oj & GG & EP). rewrite (print_at debug (put h i o1) i o1 j oj y); [|now apply get_put|exact GG|reflexivity|exact F1|exact F2|exact F3|rewrite EP; exact F4|rewrite EP; exact F5|rewrite EP; exact F6].
    change (o_val o1) with v. destruct (text_in y v) as [t|e|]; cbn [bind fst snd]; [|reflexivity|reflexivity]. rewrite put_put. eexists. split; [reflexivity|]. apply agree_put; [exact A|exact I|]. cbn. auto 10.
  - pose proof (agree_get h s i A) as G. destruct (look s i) as [y|e|]; cbn [bind]; [|contradiction|unfold destroy; now rewrite G]. destruct G as (o & G & F). unfold destroy. rewrite G. cbn [bind fst snd].
    pose proof (get_lt _ _ _ G) as I. eexists. split; [reflexivity|]. destruct A as [L A]. split; [now rewrite upd_length, change_length|]. intros j o' y' H1 H2. rewrite nth_upd in H1 by exact I. rewrite nth_change in H2 by lia.
    destruct (Nat.eqb i j); [|eauto]. injection H1 as <-. injection H2 as <-. exact Logic.I.
  - pose proof (agree_get h s i A) as G. destruct (look s i) as [y|e|]; cbn [bind]; [|contradiction|unfold set_width; now rewrite G]. destruct G as (o & G & F). pose proof (get_lt _ _ _ G) as I. destruct F as (F1 & F2 & F3 & F4 & F5 & F6 & F7).
    rewrite (set_width_own h i o false w G F1 F3) by congruence. cbn [bind fst snd]. eexists. split; [reflexivity|]. apply agree_put; [exact A|exact I|]. cbn. auto 10.
  - pose proof (agree_get h s i A) as G. destruct (look s i) as [y|e|]; cbn [bind]; [|contradiction|unfold set_prec; now rewrite G]. destruct G as (o & G & F). pose proof (get_lt _ _ _ G) as I. destruct F as (F1 & F2 & F3 & F4 & F5 & F6 & F7).
    rewrite (set_prec_own h i o false p G F2). cbn [bind fst snd]. eexists. split; [reflexivity|]. apply agree_put; [exact A|exact I|]. rewrite (wrap_prec p K). cbn. auto 10.
  - pose proof (agree_get h s i A) as G. destruct (look s i) as [y|e|]; cbn [bind]; [|contradiction|unfold set_align; now rewrite G]. destruct G as (o & G & F). pose proof (get_lt _ _ _ G) as I. destruct F as (F1 & F2 & F3 & F4 & F5 & F6 & F7).
    rewrite (set_align_own h i o false a G F3 K). cbn [bind fst snd]. eexists. split; [reflexivity|]. apply agree_put; [exact A|exact I|]. cbn. auto 10.
  - pose proof (show_own debug h s i v A) as H. destruct (look s i) as [y|e|]; cbn [bind] in *; [|exact H|exact H]. destruct (text_in y v) as [t|e|]; cbn [bind fst snd] in *; exact H.
  - pose proof (agree_get h s i A) as G. destruct (look s i) as [y|e|] eqn:L; cbn [bind]; [|contradiction|unfold call_tmp, aim; now rewrite G]. destruct G as (o & G & F). pose proof (get_lt _ _ _ G) as I. destruct F as (F1 & F2 & F3 & F4 & F5 & F6 & F7).
    rewrite (call_tmp_own h i o v p w G F1 F2 F3) by congruence. cbn [bind]. rewrite (wrap_prec p K).
    erewrite (print_tmp debug _ i _ (mkStyle w p (y_a y))); [|apply get_put; exact I|reflexivity|reflexivity|reflexivity|reflexivity|reflexivity|reflexivity|exact F6]. cbn [o_val o_prm o_tmp].
    destruct (text_in (mkStyle w p (y_a y)) v) as [t|e|]; cbn [bind fst snd]; [|reflexivity|reflexivity]. rewrite put_put. eexists. split; [reflexivity|]. rewrite <- (change_same s i y (look_nth _ _ _ L)). apply agree_put; [exact A|exact I|]. cbn. auto 10.
Qed.
Lemma frun_value debug : forall l h s, agree h s -> Forall op_ok l -> frun debug h l = vrun s l.
Proof.
  induction l as [|o l IH]; intros h s A K; [reflexivity|]. apply Forall_cons_iff in K as [K1 K2]. cbn [frun vrun]. pose proof (fstep_value debug h s o A K1) as H.
  destruct (vstep s o) as [[s' t]|e|]; cbn [bind]; [|now rewrite H|now rewrite H]. destruct H as (h' & E & A'). rewrite E. cbn [bind fst snd]. now rewrite (IH h' s' A' K2).
Qed.
