(** Lemmas on the ownership of converter buffers. *)
From Verif Require Import Base Numerals ConvModel ConvProofs CBufModel.
Open Scope Z_scope.

(** * Specification: a converter is a value with a latest text *)

(** Alive, has memory of its own, capacity in characters with the terminator, the number of the latest string it made. *)
Record arec := mkArec { a_live : bool; a_own : bool; a_size : Z; a_last : option nat }.
(** The converters and the strings made so far: by whom, and the decimal text; None where the text did not fit. *)
Definition astate := (list arec * list (option (nat * list Z)))%type.

(** Which numbers a converter for the type takes: those of the type, without negative chars and without the least int, long and
    long long. *)
Definition takes (t : ity) (n : Z) : bool :=
  match t with
  | TChar => (0 <=? n) && (n <=? 127)
  | TUChar => (0 <=? n) && (n <=? 255)
  | TShort => (-32768 <=? n) && (n <=? 32767)
  | TUShort => (0 <=? n) && (n <=? 65535)
  | TInt => (-2147483647 <=? n) && (n <=? 2147483647)
  | TUInt => (0 <=? n) && (n <=? 4294967295)
  | TLong | TLLong => (-9223372036854775807 <=? n) && (n <=? 9223372036854775807)
  | TULong | TULLong => (0 <=? n) && (n <=? 18446744073709551615)
  end.

(** One step of the specification; None: the specification says nothing. *)
Definition a_step (s : astate) (o : cop) : option (astate * list (list Z)) :=
  let '(cs, ss) := s in
  match o with
  | CNew room size => if room && (0 <? size) then Some ((cs ++ [mkArec true true size None], ss), []) else None
  | COver cells => if 0 <? Zlen cells then Some ((cs ++ [mkArec true false (Zlen cells) None], ss), []) else None
  | CConv i t n =>
      match nth_error cs i with
      | Some (mkArec true own size _) =>
          if takes t n then
            let fits := Zlen (num_str n) <? size in
            Some ((upd i (mkArec true own size (if fits then Some (length ss) else None)) cs,
                   ss ++ [if fits then Some (i, num_str n) else None]), [])
          else None
      | _ => None
      end
  | CRead k =>
      match nth_error ss k with
      | Some (Some (i, t)) =>
          match nth_error cs i with
          | Some (mkArec live own _ (Some j)) => if Nat.eqb j k && (live || negb own) then Some (s, [t]) else None
          | _ => None
          end
      | _ => None
      end
  | CDel i =>
      match nth_error cs i with
      | Some (mkArec true own size last) => Some ((upd i (mkArec false own size last) cs, ss), [])
      | _ => None
      end
  | CCopy _ | CAssign _ _ => None
  end.
Fixpoint a_run (s : astate) (l : list cop) : option (list (list Z)) :=
  match l with
  | [] => Some []
  | o :: l => match a_step s o with
              | Some (s, t) => match a_run s l with Some q => Some (t ++ q) | None => None end
              | None => None
              end
  end.

(** * The model keeps to it *)

Lemma takes_good t n : takes t n = true -> conv_good t n.
Proof.
  unfold takes, conv_good, in_ity. intros H.
  destruct t; cbn [isigned ibits]; apply andb_prop in H; destruct H as [H1 H2]; apply Z.leb_le in H1; apply Z.leb_le in H2;
    (split; [cbn; lia|split; [intros; try discriminate; lia|try exact I; cbn; lia]]).
Qed.
Lemma nth_upd {A} : forall (l : list A) i j x, (i < length l)%nat -> nth_error (upd i x l) j = if Nat.eqb i j then Some x else nth_error l j.
Proof. induction l as [|y l IH]; intros [|i] [|j] x H; cbn in *; try lia; try reflexivity. apply IH. lia. Qed.
Lemma upd_len {A} : forall (l : list A) i x, length (upd i x l) = length l.
Proof. induction l as [|y l IH]; intros [|i] x; cbn; [reflexivity..|]. now rewrite IH. Qed.
Lemma nth_len {A} (l : list A) i x : nth_error l i = Some x -> (i < length l)%nat.
Proof. intros H. apply nth_error_Some. congruence. Qed.
Lemma nth_snoc {A} (l : list A) x j y : nth_error (l ++ [x]) j = Some y -> nth_error l j = Some y \/ (j = length l /\ x = y).
Proof.
  destruct (Nat.lt_ge_cases j (length l)) as [H|H]; [rewrite nth_error_app1 by exact H; now left|].
  rewrite nth_error_app2 by exact H. destruct (j - length l)%nat as [|d] eqn:E; cbn; [|destruct d; discriminate].
  intros K. injection K as ->. right. split; [lia|reflexivity].
Qed.
Lemma nth_app_l {A} (l : list A) x j y : nth_error l j = Some y -> nth_error (l ++ [x]) j = Some y.
Proof. intros H. rewrite nth_error_app1; [exact H|]. exact (nth_len _ _ _ H). Qed.
Lemma nth_snoc_eq {A} (l : list A) x : nth_error (l ++ [x]) (length l) = Some x.
Proof. rewrite nth_error_app2 by lia. now rewrite Nat.sub_diag. Qed.

(** The block of a converter holds its latest text. *)
Definition holds (cells : list Z) (size : Z) (t : list Z) : Prop :=
  at_mem cells (size - 1 - Zlen t) t /\ zget cells (size - 1) = Some 0 /\ Zlen t <= size - 1.
Definition rec_ok (h : cheap) (ss : list (option (nat * list Z))) (i : nat) (r : arec) : Prop :=
  nth_error (ch_cvs h) i = Some (if a_live r then Some (mkCbuf i 0 (a_size r - 1) (a_own r)) else None) /\
  0 < a_size r /\
  exists cells, nth_error (ch_mem h) i = Some (if a_live r || negb (a_own r) then Some cells else None) /\
    Zlen cells = a_size r /\
    forall k, a_last r = Some k -> exists t, nth_error ss k = Some (Some (i, t)) /\ holds cells (a_size r) t /\ (~ In 0 t) /\
      nth_error (ch_ptrs h) k = Some (Some (i, a_size r - 1 - Zlen t)).
Definition cb_agree (h : cheap) (s : astate) : Prop :=
  length (ch_cvs h) = length (fst s) /\ length (ch_mem h) = length (fst s) /\ length (ch_ptrs h) = length (snd s) /\
  forall i r, nth_error (fst s) i = Some r -> rec_ok h (snd s) i r.

Lemma skipn_at (l : list Z) : forall p, (0 <= p < Zlen l) -> exists x, zget l p = Some x /\ skipn (Z.to_nat p) l = x :: skipn (Z.to_nat (p + 1)) l.
Proof.
  intros p H. destruct (zget_some l p H) as [x X]. exists x. split; [exact X|]. unfold zget in X. destruct (p <? 0) eqn:E; [discriminate|]. apply Z.ltb_ge in E.
  replace (Z.to_nat (p + 1)) with (S (Z.to_nat p)) by lia. revert X. generalize (Z.to_nat p) as n. clear. intros n. revert l.
  induction n as [|n IH]; intros [|y l] X; cbn in *; try discriminate; [congruence|]. now apply IH.
Qed.
Lemma c_text_at : forall t cells p, ~ In 0 t -> 0 <= p -> at_mem cells p t -> zget cells (p + Zlen t) = Some 0 ->
  c_text (skipn (Z.to_nat p) cells) = Ok t.
Proof.
  induction t as [|c t IH]; intros cells p N P A Z0.
  - change (Zlen (@nil Z)) with 0 in Z0. rewrite Z.add_0_r in Z0. pose proof (zget_inv _ _ _ Z0) as B. destruct (skipn_at cells p B) as (x & X & ->).
    rewrite Z0 in X. injection X as <-. reflexivity.
  - rewrite Zlen_cons in Z0. pose proof (zget_inv _ _ _ Z0) as B. pose proof (Zlen_nonneg t) as B1. destruct (skipn_at cells p ltac:(lia)) as (x & X & ->).
    pose proof (A 0 ltac:(rewrite Zlen_cons; lia)) as A0. rewrite Z.add_0_r, zget_cons_0 in A0. rewrite A0 in X. injection X as <-. cbn [c_text].
    destruct (c =? 0) eqn:E; [apply Z.eqb_eq in E; subst; exfalso; apply N; now left|].
    rewrite (IH cells (p + 1)); [reflexivity| |lia| |].
    + intros K. apply N. now right.
    + intros i I1. specialize (A (i + 1) ltac:(rewrite Zlen_cons; lia)). replace (p + 1 + i) with (p + (i + 1)) by lia. rewrite A.
      rewrite zget_cons_pos by lia. f_equal. lia.
    + replace (p + 1 + Zlen t) with (p + (1 + Zlen t)) by lia. replace (1 + Zlen t) with (Zlen t + 1) by lia. first [exact Z0 | (rewrite <- Z0; f_equal; lia)].
Qed.


Lemma num_no_nul z s : numeral z s -> ~ In 0 s.
Proof.
  assert (HD : forall l, forallb is_digit l = true -> ~ In 0 l).
  { intros l H F. rewrite forallb_forall in H. specialize (H 0 F). discriminate. }
  intros [[_ [H _]]|[_ (t & -> & [H _])]]; [apply HD; exact H|]. intros [F|F]; [discriminate|exact (HD _ H F)].
Qed.

(** A converter other than the ones touched stays as it is. *)
Lemma rec_ok_keep h h' ss ss' i r : rec_ok h ss i r ->
  nth_error (ch_cvs h') i = nth_error (ch_cvs h) i -> nth_error (ch_mem h') i = nth_error (ch_mem h) i ->
  (forall k x, nth_error (ch_ptrs h) k = Some x -> nth_error (ch_ptrs h') k = Some x) ->
  (forall k x, nth_error ss k = Some x -> nth_error ss' k = Some x) -> rec_ok h' ss' i r.
Proof.
  intros (C & S0 & cells & M & L & K) EC EM EP ES. unfold rec_ok. rewrite EC, EM. split; [exact C|]. split; [exact S0|].
  exists cells. split; [exact M|]. split; [exact L|]. intros k E. destruct (K k E) as (t & T1 & T2 & T3 & T4).
  exists t. split; [now apply ES|]. split; [exact T2|]. split; [exact T3|]. now apply EP.
Qed.

Lemma step_ok h s o s' t : cb_agree h s -> a_step s o = Some (s', t) -> exists h', cb_step h o = Ok (h', t) /\ cb_agree h' s'.
Proof.
  destruct s as [cs ss]. intros (LC & LM & LP & K) H. cbn [fst snd] in *. destruct o as [room size|cells|i ty n|k|i|i|i j]; cbn [a_step] in H.
  - destruct (room && (0 <? size)) eqn:E; [|discriminate]. apply andb_prop in E. destruct E as [-> E]. apply Z.ltb_lt in E. injection H as <- <-.
    cbn [cb_step]. unfold cb_new. rewrite store_ok by (unfold Zlen; rewrite repeat_length; lia). cbn [bind]. eexists. split; [reflexivity|].
    unfold cb_agree. cbn [fst snd ch_cvs ch_mem ch_ptrs]. rewrite !app_length. cbn [length]. split; [lia|]. split; [lia|]. split; [exact LP|].
    intros i r R. apply nth_snoc in R. destruct R as [R|[-> <-]].
    + apply (rec_ok_keep h _ ss); [now apply K| | |auto|auto]; cbn [ch_cvs ch_mem]; rewrite nth_error_app1; try reflexivity; pose proof (nth_len _ _ _ R); lia.
    + unfold rec_ok. cbn [ch_cvs ch_mem a_live a_own a_size a_last orb]. split; [rewrite <- LC, nth_snoc_eq; rewrite LM, <- LC; reflexivity|]. split; [exact E|].
      eexists. split; [rewrite <- LM, nth_snoc_eq; reflexivity|]. split; [rewrite Zlen_zset; unfold Zlen; rewrite repeat_length; lia|]. discriminate.
  - destruct (0 <? Zlen cells) eqn:E; [|discriminate]. apply Z.ltb_lt in E. injection H as <- <-. cbn [cb_step]. eexists. split; [reflexivity|].
    unfold cb_agree, cb_over. cbn [fst snd ch_cvs ch_mem ch_ptrs]. rewrite !app_length. cbn [length]. split; [lia|]. split; [lia|]. split; [exact LP|].
    intros i r R. apply nth_snoc in R. destruct R as [R|[-> <-]].
    + apply (rec_ok_keep h _ ss); [now apply K| | |auto|auto]; cbn [ch_cvs ch_mem]; rewrite nth_error_app1; try reflexivity; pose proof (nth_len _ _ _ R); lia.
    + unfold rec_ok. cbn [ch_cvs ch_mem a_live a_own a_size a_last orb]. split; [rewrite <- LC, nth_snoc_eq; rewrite LM, <- LC; reflexivity|]. split; [exact E|].
      eexists. split; [rewrite <- LM, nth_snoc_eq; reflexivity|]. split; [reflexivity|]. discriminate.
  - destruct (nth_error cs i) as [[[] own size last]|] eqn:R; try discriminate. destruct (takes ty n) eqn:T; [|discriminate]. injection H as <- <-.
    destruct (K i _ R) as (C & S0 & cells & M & L & _). cbn [a_live a_own a_size a_last orb] in *.
    pose proof (conv_cstr_ok ty n 0 (size - 1) cells (takes_good _ _ T) ltac:(lia) ltac:(lia)) as (o & m' & E & [EL EO] & Z0 & s0 & N & D).
    assert (s0 = num_str n) as -> by (apply (numeral_unique n); [exact N|apply num_str_numeral]).
    cbn [cb_step]. unfold cb_conv, conv_of, block. rewrite C. cbn [bind cb_blk cb_lo cb_hi]. rewrite M. cbn [bind]. rewrite E. cbn [bind fst snd].
    eexists. split; [reflexivity|]. unfold cb_agree. cbn [fst snd ch_cvs ch_mem ch_ptrs]. rewrite !app_length, !upd_len. cbn [length].
    split; [exact LC|]. split; [exact LM|]. split; [lia|]. intros j r J. pose proof (nth_len _ _ _ R) as LI. rewrite nth_upd in J by exact LI.
    destruct (Nat.eqb i j) eqn:IJ.
    + apply Nat.eqb_eq in IJ. subst j. injection J as <-. unfold rec_ok. cbn [ch_cvs ch_mem ch_ptrs a_live a_own a_size a_last orb].
      split; [exact C|]. split; [exact S0|]. exists m'. rewrite nth_upd by lia. rewrite Nat.eqb_refl. split; [reflexivity|]. split; [lia|].
      intros k EK. destruct (Zlen (num_str n) <? size) eqn:F; [|discriminate]. apply Z.ltb_lt in F. injection EK as <-.
      destruct D as [(D1 & -> & D3)|[D1 _]]; [|lia]. exists (num_str n). split; [apply nth_snoc_eq|]. split; [split; [exact D3|split; [exact Z0|lia]]|].
      split; [exact (num_no_nul _ _ N)|]. rewrite <- LP. apply nth_snoc_eq.
    + apply Nat.eqb_neq in IJ. apply (rec_ok_keep h _ ss); [now apply K|reflexivity| | |].
      * cbn [ch_mem]. rewrite nth_upd by lia. destruct (Nat.eqb i j) eqn:X; [apply Nat.eqb_eq in X; contradiction|reflexivity].
      * intros. cbn [ch_ptrs]. now apply nth_app_l.
      * intros. now apply nth_app_l.
  - destruct (nth_error ss k) as [[[i t0]|]|] eqn:SK; try discriminate. destruct (nth_error cs i) as [[live own size [j|]]|] eqn:R; try discriminate.
    destruct (Nat.eqb j k && (live || negb own)) eqn:E; [|discriminate]. apply andb_prop in E. destruct E as [E1 E2]. apply Nat.eqb_eq in E1. subst j. injection H as <- <-.
    destruct (K i _ R) as (C & S0 & cells & M & L & X). cbn [a_live a_own a_size a_last] in *. destruct (X k eq_refl) as (u & U1 & (U2 & U3 & U4) & U5 & U6).
    rewrite SK in U1. injection U1 as <-. rewrite E2 in M. exists h. cbn [cb_step]. unfold cb_read, block. rewrite U6, M. cbn [bind].
    rewrite (c_text_at t0 cells); [split; [reflexivity|]|exact U5|lia|exact U2|].
    + split; [exact LC|]. split; [exact LM|]. split; [exact LP|exact K].
    + replace (size - 1 - Zlen t0 + Zlen t0) with (size - 1) by lia. exact U3.
  - destruct (nth_error cs i) as [[[] own size last]|] eqn:R; try discriminate. injection H as <- <-.
    destruct (K i _ R) as (C & S0 & cells & M & L & X). cbn [a_live a_own a_size a_last orb] in *. pose proof (nth_len _ _ _ R) as LI.
    cbn [cb_step]. unfold cb_del, conv_of. rewrite C. cbn [bind cb_own cb_blk].
    assert (F : (if own then free (ch_mem h) i else Ok (ch_mem h)) = Ok (if own then upd i None (ch_mem h) else ch_mem h)).
    { destruct own; [|reflexivity]. unfold free, block. rewrite M. reflexivity. }
    rewrite F. cbn [bind]. eexists. split; [reflexivity|]. unfold cb_agree. cbn [fst snd ch_cvs ch_mem ch_ptrs]. rewrite !upd_len.
    split; [exact LC|]. split; [destruct own; rewrite ?upd_len; exact LM|]. split; [exact LP|].
    intros j r J. rewrite nth_upd in J by exact LI. destruct (Nat.eqb i j) eqn:IJ.
    + apply Nat.eqb_eq in IJ. subst j. injection J as <-. unfold rec_ok. cbn [ch_cvs ch_mem ch_ptrs a_live a_own a_size a_last orb].
      rewrite nth_upd by lia. rewrite Nat.eqb_refl. split; [reflexivity|]. split; [exact S0|]. exists cells. split; [|split; [exact L|exact X]].
      destruct own; cbn [negb]; [rewrite nth_upd by lia; rewrite Nat.eqb_refl; reflexivity|exact M].
    + apply (rec_ok_keep h _ ss); [now apply K| | |auto|auto]; cbn [ch_cvs ch_mem].
      * rewrite nth_upd by lia. now rewrite IJ.
      * destruct own; [|reflexivity]. rewrite nth_upd by lia. now rewrite IJ.
  - discriminate.
  - discriminate.
Qed.
Lemma run_ok : forall l h s t, cb_agree h s -> a_run s l = Some t -> exists h', cb_run h l = Ok (h', t).
Proof.
  induction l as [|o l IH]; intros h s t A H; cbn [a_run cb_run] in *.
  - injection H as <-. now exists h.
  - destruct (a_step s o) as [[s1 t1]|] eqn:E; [|discriminate]. destruct (a_run s1 l) as [q|] eqn:Q; [|discriminate]. injection H as <-.
    destruct (step_ok h s o s1 t1 A E) as (h1 & -> & A1). cbn [bind fst snd]. destruct (IH h1 s1 q A1 Q) as (h2 & ->). cbn [bind fst snd]. now exists h2.
Qed.

(** * Accounting of the blocks *)

Definition there {A} (x : option A) : bool := match x with Some _ => true | None => false end.
Definition owner (x : option cbuf) : bool := match x with Some c => cb_own c | None => false end.
Definition count {A} (f : A -> bool) (l : list A) : nat := length (filter f l).
(** Does the operation copy or assign a converter; does it bring an array of the caller. *)
Definition copies (o : cop) : bool := match o with CCopy _ | CAssign _ _ => true | _ => false end.
Definition brings (o : cop) : bool := match o with COver _ => true | _ => false end.

Lemma count_app {A} (f : A -> bool) l k : count f (l ++ k) = (count f l + count f k)%nat.
Proof. unfold count. now rewrite filter_app, app_length. Qed.
Lemma count_upd {A} (f : A -> bool) : forall l i x y, nth_error l i = Some y ->
  (count f (upd i x l) + (if f y then 1 else 0) = count f l + (if f x then 1 else 0))%nat.
Proof.
  induction l as [|z l IH]; intros [|i] x y H; cbn in H; try discriminate; unfold count in *; cbn [upd filter].
  - injection H as <-. destruct (f z), (f x); cbn [length]; lia.
  - specialize (IH i x y H). destruct (f z); cbn [length]; lia.
Qed.
Lemma block_inv m b c : block m b = Ok c -> nth_error m b = Some (Some c).
Proof. unfold block. destruct (nth_error m b) as [[]|]; intros H; try discriminate. now injection H as ->. Qed.
Lemma conv_of_inv h i c : conv_of h i = Ok c -> nth_error (ch_cvs h) i = Some (Some c).
Proof. unfold conv_of. destruct (nth_error (ch_cvs h) i) as [[]|]; intros H; try discriminate. now injection H as ->. Qed.
Lemma step_count h o h' t : cb_step h o = Ok (h', t) -> copies o = false ->
  (count there (ch_mem h') + count owner (ch_cvs h) = count there (ch_mem h) + count owner (ch_cvs h') + (if brings o then 1 else 0))%nat.
Proof.
  destruct o as [room size|cells|i ty n|k|i|i|i j]; cbn [cb_step copies brings]; intros H C; try discriminate.
  - unfold cb_new in H. destruct room; [|discriminate]. destruct (store _ _ _) as [m| |]; cbn [bind] in H; try discriminate. injection H as <- <-.
    cbn [ch_mem ch_cvs]. rewrite !count_app. cbn. lia.
  - injection H as <- <-. unfold cb_over. cbn [ch_mem ch_cvs]. rewrite !count_app. cbn. lia.
  - unfold cb_conv in H. destruct (conv_of h i) as [c| |] eqn:E; cbn [bind] in H; try discriminate. destruct (block (ch_mem h) (cb_blk c)) as [m| |] eqn:B; cbn [bind] in H; try discriminate.
    destruct (conv_cstr _ _ _ _ _) as [r| |]; cbn [bind] in H; try discriminate. injection H as <- <-. cbn [ch_mem ch_cvs].
    pose proof (count_upd there _ _ (Some (snd r)) _ (block_inv _ _ _ B)) as U. cbn [there] in U. lia.
  - destruct (cb_read h k); cbn [bind] in H; try discriminate. injection H as <- <-. lia.
  - unfold cb_del in H. destruct (conv_of h i) as [c| |] eqn:E; cbn [bind] in H; try discriminate. apply conv_of_inv in E.
    pose proof (count_upd owner _ _ None _ E) as V. cbn [owner] in V. destruct (cb_own c).
    + unfold free in H. destruct (block (ch_mem h) (cb_blk c)) as [m| |] eqn:B; cbn [bind] in H; try discriminate. injection H as <- <-. cbn [ch_mem ch_cvs].
      pose proof (count_upd there _ _ None _ (block_inv _ _ _ B)) as U. cbn [there] in U. lia.
    + cbn [bind] in H. injection H as <- <-. cbn [ch_mem ch_cvs]. lia.
Qed.
Lemma run_count : forall l h h' t, cb_run h l = Ok (h', t) -> forallb (fun o => negb (copies o)) l = true ->
  (count there (ch_mem h') + count owner (ch_cvs h) = count there (ch_mem h) + count owner (ch_cvs h') + count brings l)%nat.
Proof.
  induction l as [|o l IH]; intros h h' t H C; cbn [cb_run forallb] in *.
  - injection H as <- <-. unfold count. cbn. lia.
  - apply andb_prop in C. destruct C as [C1 C2]. apply Bool.negb_true_iff in C1. destruct (cb_step h o) as [[h1 t1]| |] eqn:E; cbn [bind fst snd] in H; try discriminate.
    destruct (cb_run h1 l) as [[h2 t2]| |] eqn:Q; cbn [bind fst snd] in H; try discriminate. injection H as <- <-.
    pose proof (step_count _ _ _ _ E C1) as U. pose proof (IH _ _ _ Q C2) as V. unfold count in *. cbn [filter]. destruct (brings o); cbn [length]; lia.
Qed.
Lemma run_app : forall l k h, cb_run h (l ++ k) = (r <- cb_run h l ;; q <- cb_run (fst r) k ;; Ok (fst q, snd r ++ snd q)).
Proof.
  induction l as [|o l IH]; intros k h; cbn [cb_run app].
  - cbn [bind fst snd app]. destruct (cb_run h k) as [[]| |]; reflexivity.
  - destruct (cb_step h o) as [[h1 t1]| |]; cbn [bind fst snd]; [|reflexivity..]. rewrite IH. destruct (cb_run h1 l) as [[h2 t2]| |]; cbn [bind fst snd]; [|reflexivity..].
    destruct (cb_run h2 k) as [[h3 t3]| |]; cbn [bind fst snd]; [|reflexivity..]. now rewrite app_assoc.
Qed.
