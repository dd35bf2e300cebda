(** Lemmas on windows over plain buffers. *)
From Verif Require Import Base PStenModel.
Open Scope Z_scope.

(** * The specification: windows (start, size) on a list of bytes *)

Definition window := (Z * Z)%type.
Definition byte_at (m : list Z) (i : Z) : Z := nth (Z.to_nat i) m 0.
Definition with_byte (m : list Z) (i c : Z) : list Z := firstn (Z.to_nat i) m ++ c :: skipn (Z.to_nat i + 1) m.
Definition with_bytes (m : list Z) (i : Z) (vs : list Z) : list Z := firstn (Z.to_nat i) m ++ vs ++ skipn (Z.to_nat i + length vs) m.
Fixpoint put_window (t : list window) (k : nat) (w : window) : list window :=
  match t, k with [], _ => [] | _ :: tl, O => w :: tl | x :: tl, S j => x :: put_window tl j w end.
Definition win (t : list window) (k : nat) : window := nth k t (0, 0).
(** What a program should do... *)
Definition w_step (m : list Z) (t : list window) (o : pop) : list Z * list window * list Z :=
  match o with
  | PMake start n => (m, t ++ [(start, n)], [])
  | PSub k start n => (m, t ++ [(fst (win t k) + start, n)], [])
  | PResettle k start n => (m, put_window t k (start, n), [])
  | PAssign k j => (m, put_window t k (win t j), [])
  | PGet k i | PAt k i => (m, t, [byte_at m (fst (win t k) + i)])
  | PSet k i c | PAtSet k i c => (with_byte m (fst (win t k) + i) c, t, [])
  | PFront k => (m, t, [byte_at m (fst (win t k))])
  | PBack k => (m, t, [byte_at m (fst (win t k) + snd (win t k) - 1)])
  | PSize k => (m, t, [snd (win t k)])
  | PAll k => (m, t, firstn (Z.to_nat (snd (win t k))) (skipn (Z.to_nat (fst (win t k))) m))
  | PInit k v vs => (with_bytes m (fst (win t k)) (v :: vs), t, [])
  end.
Fixpoint w_run (m : list Z) (t : list window) (l : list pop) : list Z * list window * list Z :=
  match l with
  | [] => (m, t, [])
  | o :: tl => let '(m1, t1, out) := w_step m t o in let '(m2, t2, out2) := w_run m1 t1 tl in (m2, t2, out ++ out2)
  end.
(** ... if every window lies in the buffer and every index in its window. The first byte of the buffer is not asked for with at. *)
Definition w_ok (len : Z) (t : list window) (o : pop) : Prop :=
  match o with
  | PMake start n => 0 <= start /\ 0 <= n /\ start + n <= len
  | PSub k start n => (k < length t)%nat /\ 0 <= start /\ 0 <= n /\ fst (win t k) + start + n <= len
  | PResettle k start n => (k < length t)%nat /\ 0 <= start /\ 0 <= n /\ start + n <= len
  | PAssign k j => (k < length t)%nat /\ (j < length t)%nat
  | PGet k i | PSet k i _ => (k < length t)%nat /\ 0 <= i < snd (win t k)
  | PAt k i | PAtSet k i _ => (k < length t)%nat /\ 0 <= i < snd (win t k) /\ 0 < fst (win t k) + i
  | PFront k | PBack k => (k < length t)%nat /\ 0 < snd (win t k)
  | PSize k | PAll k => (k < length t)%nat
  | PInit k v vs => (k < length t)%nat /\ Zlen (v :: vs) <= snd (win t k)
  end.
Fixpoint w_all_ok (len : Z) (m : list Z) (t : list window) (l : list pop) : Prop :=
  match l with [] => True | o :: tl => w_ok len t o /\ w_all_ok len (fst (fst (w_step m t o))) (snd (fst (w_step m t o))) tl end.

(** * The model follows it *)

Definition view (len : Z) (w : window) : psten := mkP len (fst w) (fst w + snd w).
Definition sound (len : Z) (t : list window) : Prop := forall w, In w t -> 0 <= fst w /\ 0 <= snd w /\ fst w + snd w <= len.
Lemma pick_view len t k : (k < length t)%nat -> pick (map (view len) t) k = Ok (view len (win t k)).
Proof. intros K. unfold pick, win. rewrite nth_error_map. destruct (nth_error t k) as [w|] eqn:E; [|apply nth_error_None in E; lia]. cbn. erewrite nth_error_nth by exact E. reflexivity. Qed.
Lemma win_in t k : (k < length t)%nat -> In (win t k) t.
Proof. intros K. now apply nth_In. Qed.
Lemma replace_view len t : forall k w, replace (map (view len) t) k (view len w) = map (view len) (put_window t k w).
Proof. induction t as [|x t IH]; intros [|k] w; cbn; auto. now rewrite IH. Qed.
Lemma put_window_in t : forall k w x, In x (put_window t k w) -> x = w \/ In x t.
Proof. induction t as [|y t IH]; intros [|k] w x H; cbn in *; auto; destruct H as [H|H]; auto. apply IH in H. tauto. Qed.
Lemma load_in m i : 0 <= i < Zlen m -> load m i = Ok (byte_at m i).
Proof.
  intros I. unfold load, byte_at, zget, Zlen in *. replace (i <? 0) with false by lia. destruct (nth_error m (Z.to_nat i)) as [c|] eqn:E; [erewrite nth_error_nth by exact E; reflexivity|apply nth_error_None in E; lia].
Qed.
Lemma upd_split {A} (x : A) : forall n l, (n < length l)%nat -> upd n x l = firstn n l ++ x :: skipn (n + 1) l.
Proof. induction n as [|n IH]; intros [|y l] L; cbn in *; try lia; [reflexivity|]. now rewrite IH by lia. Qed.
Lemma store_in m i c : 0 <= i < Zlen m -> store m i c = Ok (with_byte m i c).
Proof.
  intros I. unfold store. destruct (zget_some m i I) as [x ->]. unfold zset, with_byte, Zlen in *. replace (i <? 0) with false by lia. now rewrite upd_split by lia.
Qed.
Lemma with_byte_len m i c : 0 <= i < Zlen m -> Zlen (with_byte m i c) = Zlen m.
Proof. intros I. unfold with_byte, Zlen in *. rewrite app_length. cbn [length]. rewrite firstn_length, skipn_length. lia. Qed.
Lemma with_bytes_cons m i v vs : 0 <= i -> i + Zlen (v :: vs) <= Zlen m -> with_bytes (with_byte m i v) (i + 1) vs = with_bytes m i (v :: vs).
Proof.
  intros I L. unfold with_bytes, with_byte, Zlen in *. cbn [length] in *. replace (Z.to_nat (i + 1)) with (S (Z.to_nat i)) by lia. set (n := Z.to_nat i). assert (N : (n + S (length vs) <= length m)%nat) by lia.
  assert (LF : length (firstn n m) = n) by (rewrite firstn_length; lia).
  rewrite firstn_app, LF. rewrite (firstn_all2 (firstn n m)) by lia. replace (S n - n)%nat with 1%nat by lia. rewrite firstn_cons, firstn_O, <- app_assoc. cbn [app]. f_equal. f_equal. f_equal.
  rewrite skipn_app, LF. rewrite (skipn_all2 (firstn n m)) by lia. cbn [app]. replace (S n + length vs - n)%nat with (S (length vs)) by lia. cbn [skipn].
  clear. revert m. induction n as [|n IH]; intros m; cbn [Nat.add].
  - destruct m as [|y m]; [now rewrite !skipn_nil|]. cbn [skipn]. destruct m; reflexivity.
  - destruct m as [|y m]; [now rewrite !skipn_nil|]. cbn [skipn]. apply IH.
Qed.
Lemma fill_in debug : forall vs m pos left, 0 <= pos -> pos + Zlen vs <= Zlen m -> Zlen vs <= left ->
  p_fill debug m pos left vs = Ok (with_bytes m pos vs) /\ Zlen (with_bytes m pos vs) = Zlen m.
Proof.
  induction vs as [|v vs IH]; intros m pos left P L F.
  - cbn [p_fill]. unfold with_bytes. cbn [length app]. rewrite Nat.add_0_r, firstn_skipn. auto.
  - cbn [p_fill]. rewrite Zlen_cons in *. pose proof (Zlen_nonneg vs). replace (0 <? left) with true by lia. unfold assert_throw. cbn [negb]. rewrite andb_false_r. cbn [bind]. rewrite store_in by lia. cbn [bind].
    pose proof (with_byte_len m pos v ltac:(lia)) as WL. destruct (IH (with_byte m pos v) (pos + 1) (left - 1)) as [E1 E2]; try lia. rewrite with_bytes_cons in E1, E2 by (try rewrite Zlen_cons; lia). split; [exact E1|]. now rewrite E2.
Qed.
Lemma walk_in m : forall n pos, 0 <= pos -> pos + Z.of_nat n <= Zlen m -> p_walk m n pos = Ok (firstn n (skipn (Z.to_nat pos) m)).
Proof.
  induction n as [|n IH]; intros pos P L; [reflexivity|]. cbn [p_walk]. rewrite load_in by lia. cbn [bind]. rewrite IH by lia. cbn [bind]. f_equal. unfold byte_at, Zlen in *. replace (Z.to_nat (pos + 1)) with (S (Z.to_nat pos)) by lia.
  set (q := Z.to_nat pos). assert (Q : (q < length m)%nat) by lia. clear - Q. revert m Q. induction q as [|q IH]; intros [|y m] Q; cbn in Q; try lia; [reflexivity|]. cbn [nth skipn]. apply IH. lia.
Qed.
Ltac asserts := unfold assert_throw; repeat match goal with |- context [?a <=? ?b] => replace (a <=? b) with true by (cbn [p_b p_e p_len view] in *; lia) end; cbn [negb]; rewrite ?andb_false_r; cbn [bind].
Lemma follow debug len m t o : len <= Zlen m -> len < 2 ^ 64 -> sound len t -> w_ok len t o ->
  p_step debug len m (map (view len) t) o = Ok (fst (fst (w_step m t o)), map (view len) (snd (fst (w_step m t o))), snd (w_step m t o)) /\
  sound len (snd (fst (w_step m t o))) /\ Zlen (fst (fst (w_step m t o))) = Zlen m.
Proof.
  intros L LB S K. destruct o as [start n|k start n|k start n|k j|k i|k i c|k i|k i c|k|k|k|k|k v vs]; cbn [w_step p_step w_ok fst snd] in *.
  - unfold p_make, p_ptrs. asserts. rewrite map_app. cbn [map]. unfold view at 3. cbn [fst snd]. split; [reflexivity|]. split; [|reflexivity].
    intros w W. apply in_app_iff in W as [W|[<-|[]]]; [auto|]. cbn. lia.
  - destruct K as (K & A & B & C). rewrite (pick_view len t k K). cbn [bind]. pose proof (S _ (win_in t k K)) as SW. unfold p_sub, p_ptrs. cbn [view p_b p_len p_e]. asserts.
    rewrite map_app. cbn [map]. unfold view at 3. cbn [fst snd]. split; [reflexivity|]. split; [|reflexivity]. intros w W. apply in_app_iff in W as [W|[<-|[]]]; [auto|]. cbn. lia.
  - destruct K as (K & A & B & C). rewrite (pick_view len t k K). cbn [bind p_resettle]. cbn [p_b p_e p_len view]. asserts. change (mkP len start (start + n)) with (view len (start, n)). rewrite replace_view. split; [reflexivity|]. split; [|reflexivity].
    intros w W. apply put_window_in in W as [->|W]; [cbn; lia|auto].
  - destruct K as (K & J). rewrite (pick_view len t k K), (pick_view len t j J). cbn [bind]. rewrite replace_view. split; [reflexivity|]. split; [|reflexivity]. intros w W. apply put_window_in in W as [->|W]; [apply S; now apply win_in|auto].
  - destruct K as (K & I). rewrite (pick_view len t k K). cbn [bind]. pose proof (S _ (win_in t k K)) as SW. unfold p_index. cbn [view p_b p_len]. asserts. rewrite load_in by lia. auto.
  - destruct K as (K & I). rewrite (pick_view len t k K). cbn [bind]. pose proof (S _ (win_in t k K)) as SW. unfold p_index. cbn [view p_b p_len]. asserts. rewrite store_in by lia. split; [reflexivity|]. split; [exact S|]. apply with_byte_len. lia.
  - destruct K as (K & I & I0). rewrite (pick_view len t k K). cbn [bind]. pose proof (S _ (win_in t k K)) as SW. unfold p_at. cbn [view p_b p_len]. replace (fst (win t k) + i <=? 0) with false by lia. replace (len <=? fst (win t k) + i) with false by lia. cbn [bind]. rewrite load_in by lia. auto.
  - destruct K as (K & I & I0). rewrite (pick_view len t k K). cbn [bind]. pose proof (S _ (win_in t k K)) as SW. unfold p_at. cbn [view p_b p_len]. replace (fst (win t k) + i <=? 0) with false by lia. replace (len <=? fst (win t k) + i) with false by lia. cbn [bind]. rewrite store_in by lia. split; [reflexivity|]. split; [exact S|]. apply with_byte_len. lia.
  - destruct K as (K & I). rewrite (pick_view len t k K). cbn [bind]. pose proof (S _ (win_in t k K)) as SW. unfold p_front. cbn [view p_b p_len]. asserts. rewrite load_in by lia. auto.
  - destruct K as (K & I). rewrite (pick_view len t k K). cbn [bind]. pose proof (S _ (win_in t k K)) as SW. unfold p_back. cbn [view p_b p_e p_len]. asserts. rewrite load_in by lia. auto.
  - rewrite (pick_view len t k K). cbn [bind]. pose proof (S _ (win_in t k K)) as SW. split; [|auto]. unfold p_size. cbn [view p_b p_e]. rewrite Z.mod_small by lia. do 4 f_equal. lia.
  - rewrite (pick_view len t k K). cbn [bind]. pose proof (S _ (win_in t k K)) as SW. split; [|auto]. unfold p_all, p_begin, p_end. cbn [view p_b p_e p_len]. asserts. replace (fst (win t k) + snd (win t k) <? fst (win t k)) with false by lia.
    rewrite walk_in by lia. cbn [bind]. do 3 f_equal. lia.
  - destruct K as (K & I). rewrite (pick_view len t k K). cbn [bind]. pose proof (S _ (win_in t k K)) as SW. unfold p_init, p_begin. cbn [view p_b p_len]. asserts.
    destruct (fill_in debug (v :: vs) m (fst (win t k)) (p_size (view len (win t k)))) as [E1 E2]; try lia; [unfold p_size; cbn [view p_b p_e]; rewrite Z.mod_small by lia; lia|]. rewrite E1. cbn [bind]. auto.
Qed.
Lemma follow_run debug len : len < 2 ^ 64 -> forall l m t, len <= Zlen m -> sound len t -> w_all_ok len m t l ->
  p_run debug len m (map (view len) t) l = Ok (fst (fst (w_run m t l)), map (view len) (snd (fst (w_run m t l))), snd (w_run m t l)).
Proof.
  intros LB. induction l as [|o l IH]; intros m t L S K; [reflexivity|]. cbn [w_all_ok] in K. destruct K as [K1 K2]. destruct (follow debug len m t o L LB S K1) as (E & S' & Z').
  cbn [p_run w_run]. rewrite E. cbn [bind]. destruct (w_step m t o) as [[m1 t1] out]. cbn [fst snd] in *. rewrite (IH m1 t1 ltac:(lia) S' K2). cbn [bind]. destruct (w_run m1 t1 l) as [[m2 t2] out2]. reflexivity.
Qed.

(** * Any program, with the checks *)

Definition unsigned_op (o : pop) : Prop :=
  match o with
  | PMake s n | PSub _ s n | PResettle _ s n => 0 <= s /\ 0 <= n
  | PGet _ i | PSet _ i _ | PAt _ i | PAtSet _ i _ => 0 <= i
  | _ => True
  end.
Definition inside (len : Z) (s : psten) : Prop := p_len s = len /\ 0 <= p_b s <= p_e s /\ p_e s <= len.
Definition well (len : Z) (t : list psten) : Prop := forall s, In s t -> inside len s.
(** The statements that can go wrong in a debug build. *)
Definition risky (len : Z) (t : list psten) (o : pop) : Prop :=
  match o with
  | PGet k i | PSet k i _ => exists s, nth_error t k = Some s /\ p_b s + i = len
  | PFront k => exists s, nth_error t k = Some s /\ p_b s = len
  | PBack k => exists s, nth_error t k = Some s /\ p_e s = 0
  | _ => False
  end.
Definition index_of (o : pop) : option nat :=
  match o with PMake _ _ => None | PSub k _ _ | PResettle k _ _ | PAssign k _ | PGet k _ | PSet k _ _ | PAt k _ | PAtSet k _ _ | PFront k | PBack k | PSize k | PAll k | PInit k _ _ => Some k end.
Definition named (t : list psten) (o : pop) : Prop :=
  (forall k, index_of o = Some k -> (k < length t)%nat) /\ (forall k j, o = PAssign k j -> (j < length t)%nat).
Lemma replace_in t : forall k s x, In x (replace t k s) -> x = s \/ In x t.
Proof. induction t as [|y t IH]; intros [|k] s x H; cbn in *; auto; destruct H as [H|H]; auto. apply IH in H. tauto. Qed.
Lemma assert_true b e : (exists u, assert_throw true b e = Ok u /\ b = true) \/ assert_throw true b e = Throw e /\ b = false.
Proof. unfold assert_throw. destruct b; cbn; [left; exists tt; auto|right; auto]. Qed.
Lemma fill_checked : forall vs m pos left, 0 <= pos -> 0 <= left -> pos + left <= Zlen m ->
  match p_fill true m pos left vs with
  | Ok m' => Zlen m' = Zlen m /\ forall i, i < pos \/ pos + left <= i -> zget m' i = zget m i
  | Throw e => e = OutOfRangeError
  | UB => False
  end.
Proof.
  induction vs as [|v vs IH]; intros m pos left P L B; [cbn; auto|]. cbn [p_fill]. destruct (assert_true (0 <? left) OutOfRangeError) as [(u & -> & H)|[-> _]]; cbn [bind]; [|reflexivity].
  rewrite store_in by lia. cbn [bind]. pose proof (with_byte_len m pos v ltac:(lia)) as WL. specialize (IH (with_byte m pos v) (pos + 1) (left - 1) ltac:(lia) ltac:(lia) ltac:(lia)).
  assert (WG : forall i, i < pos \/ pos + left <= i -> zget (with_byte m pos v) i = zget m i).
  { intros i I. assert (S : store m pos v = Ok (zset m pos v)) by (unfold store; destruct (zget_some m pos ltac:(lia)) as [x ->]; reflexivity). rewrite store_in in S by lia. injection S as ->. apply zget_zset_neq. lia. }
  destruct (p_fill true (with_byte m pos v) (pos + 1) (left - 1) vs) as [m'|e|]; auto. destruct IH as [I1 I2]. split; [lia|]. intros i I. rewrite I2 by lia. now apply WG.
Qed.
Definition same_outside (len : Z) (m m' : list Z) : Prop := Zlen m' = Zlen m /\ forall i, i < 0 \/ len <= i -> zget m' i = zget m i.
Lemma checked len m t o : len <= Zlen m -> len < 2 ^ 64 -> well len t -> unsigned_op o -> named t o -> ~ risky len t o ->
  match p_step true len m t o with
  | Ok (m', t', _) => well len t' /\ (length t <= length t')%nat /\ same_outside len m m'
  | Throw e => e = OutOfRangeError
  | UB => False
  end.
Proof.
  intros L LB W U [N1 N2] R.
  assert (PK : forall k, index_of o = Some k -> exists s, nth_error t k = Some s /\ pick t k = Ok s /\ inside len s).
  { intros k K. specialize (N1 k K). destruct (nth_error t k) as [s|] eqn:E; [|apply nth_error_None in E; lia]. exists s. split; [reflexivity|]. unfold pick. rewrite E. split; [reflexivity|]. apply W. now apply nth_error_In in E. }
  assert (RL : forall k s, length (replace t k s) = length t) by (clear; induction t as [|y t IH]; intros [|k] s; cbn; auto).
  assert (SM : same_outside len m m) by (split; auto).
  destruct o as [start n|k start n|k start n|k j|k i|k i c|k i|k i c|k|k|k|k|k v vs]; cbn [p_step unsigned_op] in *.
  - unfold p_make, p_ptrs. destruct (assert_true (start <=? len) OutOfRangeError) as [(u & -> & H1)|[-> _]]; cbn [bind]; [|reflexivity].
    destruct (assert_true (start + n <=? len) OutOfRangeError) as [(u2 & -> & H2)|[-> _]]; cbn [bind]; [|reflexivity].
    split; [|split; [rewrite app_length; lia|exact SM]]. intros s S. apply in_app_iff in S as [S|[<-|[]]]; [auto|]. unfold inside. cbn. lia.
  - destruct (PK k eq_refl) as (s & NE & E & I). rewrite E. cbn [bind]. unfold p_sub, p_ptrs. destruct I as (I1 & I2 & I3). rewrite I1.
    destruct (assert_true (p_b s + start <=? len) OutOfRangeError) as [(u & -> & H1)|[-> _]]; cbn [bind]; [|reflexivity].
    destruct (assert_true (p_b s + start + n <=? len) OutOfRangeError) as [(u2 & -> & H2)|[-> _]]; cbn [bind]; [|reflexivity].
    split; [|split; [rewrite app_length; lia|exact SM]]. intros x S. apply in_app_iff in S as [S|[<-|[]]]; [auto|]. unfold inside. cbn. lia.
  - destruct (PK k eq_refl) as (s & NE & E & I). rewrite E. cbn [bind p_resettle p_b p_e p_len]. destruct I as (I1 & I2 & I3). rewrite I1.
    destruct (assert_true (start <=? len) OutOfRangeError) as [(u & -> & H1)|[-> _]]; cbn [bind]; [|reflexivity].
    destruct (assert_true (start + n <=? len) OutOfRangeError) as [(u2 & -> & H2)|[-> _]]; cbn [bind]; [|reflexivity].
    split; [|split; [rewrite RL; lia|exact SM]]. intros x S. apply replace_in in S as [->|S]; [|auto]. unfold inside. cbn. lia.
  - destruct (PK k eq_refl) as (s & NE & E & I). rewrite E. cbn [bind]. specialize (N2 k j eq_refl). unfold pick. destruct (nth_error t j) as [sj|] eqn:EJ; [|apply nth_error_None in EJ; lia]. cbn [bind].
    split; [|split; [rewrite RL; lia|exact SM]]. intros x S. apply replace_in in S as [->|S]; [|auto]. apply W. now apply nth_error_In in EJ.
  - destruct (PK k eq_refl) as (s & NE & E & I). rewrite E. cbn [bind]. destruct I as (I1 & I2 & I3). unfold p_index. rewrite I1.
    destruct (assert_true (0 <=? p_b s + i) OutOfRangeError) as [(u & -> & H1)|[-> _]]; cbn [bind]; [|reflexivity].
    destruct (assert_true (p_b s + i <=? len) OutOfRangeError) as [(u2 & -> & H2)|[-> _]]; cbn [bind]; [|reflexivity].
    assert (p_b s + i <> len) by (intros H; apply R; exists s; auto). rewrite load_in by lia. cbn [bind]. auto.
  - destruct (PK k eq_refl) as (s & NE & E & I). rewrite E. cbn [bind]. destruct I as (I1 & I2 & I3). unfold p_index. rewrite I1.
    destruct (assert_true (0 <=? p_b s + i) OutOfRangeError) as [(u & -> & H1)|[-> _]]; cbn [bind]; [|reflexivity].
    destruct (assert_true (p_b s + i <=? len) OutOfRangeError) as [(u2 & -> & H2)|[-> _]]; cbn [bind]; [|reflexivity].
    assert (p_b s + i <> len) by (intros H; apply R; exists s; auto). unfold store. destruct (zget_some m (p_b s + i) ltac:(lia)) as [x ->]. cbn [bind]. split; [exact W|split; [lia|]]. split; [apply Zlen_zset|]. intros q Q. apply zget_zset_neq. lia.
  - destruct (PK k eq_refl) as (s & NE & E & I). rewrite E. cbn [bind]. destruct I as (I1 & I2 & I3). unfold p_at. rewrite I1. destruct (p_b s + i <=? 0) eqn:E1; [reflexivity|]. destruct (len <=? p_b s + i) eqn:E2; [reflexivity|]. cbn [bind]. rewrite load_in by lia. cbn [bind]. auto.
  - destruct (PK k eq_refl) as (s & NE & E & I). rewrite E. cbn [bind]. destruct I as (I1 & I2 & I3). unfold p_at. rewrite I1. destruct (p_b s + i <=? 0) eqn:E1; [reflexivity|]. destruct (len <=? p_b s + i) eqn:E2; [reflexivity|]. cbn [bind].
    unfold store. destruct (zget_some m (p_b s + i) ltac:(lia)) as [x ->]. cbn [bind]. split; [exact W|split; [lia|]]. split; [apply Zlen_zset|]. intros q Q. apply zget_zset_neq. lia.
  - destruct (PK k eq_refl) as (s & NE & E & I). rewrite E. cbn [bind]. destruct I as (I1 & I2 & I3). unfold p_front. rewrite I1. destruct (assert_true (p_b s <=? len) OutOfRangeError) as [(u & -> & H1)|[-> _]]; cbn [bind]; [|reflexivity].
    assert (p_b s <> len) by (intros H; apply R; exists s; auto). rewrite load_in by lia. cbn [bind]. auto.
  - destruct (PK k eq_refl) as (s & NE & E & I). rewrite E. cbn [bind]. destruct I as (I1 & I2 & I3). unfold p_back. rewrite I1. destruct (assert_true (p_e s <=? len) OutOfRangeError) as [(u & -> & H1)|[-> _]]; cbn [bind]; [|reflexivity].
    assert (p_e s <> 0) by (intros H; apply R; exists s; auto). rewrite load_in by lia. cbn [bind]. auto.
  - destruct (PK k eq_refl) as (s & NE & E & I). rewrite E. cbn [bind]. auto.
  - destruct (PK k eq_refl) as (s & NE & E & I). rewrite E. cbn [bind]. destruct I as (I1 & I2 & I3). unfold p_all, p_begin, p_end. rewrite I1.
    destruct (assert_true (p_b s <=? len) OutOfRangeError) as [(u & -> & H1)|[-> _]]; cbn [bind]; [|reflexivity].
    destruct (assert_true (p_e s <=? len) OutOfRangeError) as [(u2 & -> & H2)|[-> _]]; cbn [bind]; [|reflexivity].
    replace (p_e s <? p_b s) with false by lia. rewrite walk_in by lia. cbn [bind]. auto.
  - destruct (PK k eq_refl) as (s & NE & E & I). rewrite E. cbn [bind]. destruct I as (I1 & I2 & I3). unfold p_init, p_begin. rewrite I1.
    destruct (assert_true (p_b s <=? len) OutOfRangeError) as [(u & -> & H1)|[-> _]]; cbn [bind]; [|reflexivity].
    assert (SZ : p_size s = p_e s - p_b s) by (unfold p_size; apply Z.mod_small; lia). rewrite SZ.
    pose proof (fill_checked (v :: vs) m (p_b s) (p_e s - p_b s) ltac:(lia) ltac:(lia) ltac:(lia)) as F. destruct (p_fill true m (p_b s) (p_e s - p_b s) (v :: vs)) as [m'|e|]; cbn [bind]; auto.
    destruct F as [F1 F2]. split; [exact W|split; [lia|]]. split; [exact F1|]. intros i I. apply F2. lia.
Qed.
(** The same in terms of the windows of the specification. *)
Definition w_next (t : list window) (o : pop) : list window := snd (fst (w_step [] t o)).
Definition w_named (t : list window) (o : pop) : Prop :=
  match o with
  | PMake _ _ => True
  | PAssign k j => (k < length t)%nat /\ (j < length t)%nat
  | PSub k _ _ | PResettle k _ _ | PGet k _ | PSet k _ _ | PAt k _ | PAtSet k _ _ | PFront k | PBack k | PSize k | PAll k | PInit k _ _ => (k < length t)%nat
  end.
Definition w_edge (len : Z) (t : list window) (o : pop) : Prop :=
  match o with
  | PGet k i | PSet k i _ => fst (win t k) + i = len
  | PFront k => fst (win t k) = len
  | PBack k => fst (win t k) + snd (win t k) = 0
  | _ => False
  end.
Fixpoint w_calm (len : Z) (t : list window) (l : list pop) : Prop :=
  match l with [] => True | o :: tl => unsigned_op o /\ w_named t o /\ ~ w_edge len t o /\ w_calm len (w_next t o) tl end.
Lemma next_any m t o : snd (fst (w_step m t o)) = w_next t o.
Proof. now destruct o. Qed.
Lemma nth_view len t k s : nth_error (map (view len) t) k = Some s -> s = view len (win t k).
Proof. rewrite nth_error_map. unfold win. destruct (nth_error t k) as [w|] eqn:E; cbn; [|discriminate]. erewrite (nth_error_nth t) by exact E. now injection 1 as <-. Qed.
Lemma step_windows debug len m t o m' t' out : w_named t o -> p_step debug len m (map (view len) t) o = Ok (m', t', out) -> t' = map (view len) (w_next t o).
Proof.
  intros N. destruct o as [start n|k start n|k start n|k j|k i|k i c|k i|k i c|k|k|k|k|k v vs]; cbn [p_step w_named w_next w_step fst snd] in *;
    unfold p_make, p_sub, p_ptrs, p_resettle, p_index, p_at, p_front, p_back, p_all, p_begin, p_end, p_init, p_begin, assert_throw;
    try (destruct N as [N N']; rewrite (pick_view len t j N')); try rewrite (pick_view len t k N); cbn [bind view p_b p_e p_len];
    repeat match goal with
    | |- context [if ?b then _ else _] => destruct b; cbn [bind]
    | |- context [bind (load ?a ?b) _] => destruct (load a b); cbn [bind]
    | |- context [bind (store ?a ?b ?c) _] => destruct (store a b c); cbn [bind]
    | |- context [bind (p_walk ?a ?b ?c) _] => destruct (p_walk a b c); cbn [bind]
    | |- context [bind (p_fill ?a ?b ?c ?d ?e) _] => destruct (p_fill a b c d e); cbn [bind]
    end; try discriminate; intros H; injection H as <- <- <-; try reflexivity;
    try (rewrite map_app; reflexivity);
    try (change (mkP len start (start + n)) with (view len (start, n)); apply replace_view);
    try (change (mkP len (fst (win t j)) (fst (win t j) + snd (win t j))) with (view len (win t j)); apply replace_view).
Qed.
Lemma same_trans len a b c : same_outside len a b -> same_outside len b c -> same_outside len a c.
Proof. intros [A1 A2] [B1 B2]. split; [congruence|]. intros i I. now rewrite B2, A2. Qed.
Lemma checked_run len : len < 2 ^ 64 -> forall l m t, len <= Zlen m -> well len (map (view len) t) -> w_calm len t l ->
  match p_run true len m (map (view len) t) l with
  | Ok (m', _, _) => same_outside len m m'
  | Throw e => e = OutOfRangeError
  | UB => False
  end.
Proof.
  intros LB. induction l as [|o l IH]; intros m t L W C; [cbn; split; auto|]. cbn [w_calm] in C. destruct C as (U & N & R & C).
  assert (N' : named (map (view len) t) o).
  { split; [intros k K|intros k j ->]; rewrite map_length; [destruct o; cbn in *; try discriminate; injection K as <-; tauto|cbn in N; tauto]. }
  assert (R' : ~ risky len (map (view len) t) o).
  { intros H. apply R. destruct o; cbn [risky w_edge] in *; try contradiction; destruct H as (s & E & H); apply nth_view in E; subst s; cbn [view p_b p_e] in H; exact H. }
  pose proof (checked len m (map (view len) t) o L LB W U N' R') as K. cbn [p_run]. destruct (p_step true len m (map (view len) t) o) as [[[m1 t1] out]|e|] eqn:E; cbn [bind]; [|exact K|exact K].
  pose proof (step_windows _ _ _ _ _ _ _ _ N E) as ->. destruct K as (K1 & K2 & K3). specialize (IH m1 (w_next t o) ltac:(destruct K3; lia) K1 C).
  destruct (p_run true len m1 (map (view len) (w_next t o)) l) as [[[m2 t2] out2]|e|]; cbn [bind]; auto. exact (same_trans _ _ _ _ K3 IH).
Qed.
