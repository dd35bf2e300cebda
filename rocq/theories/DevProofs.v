(** Lemmas about ecl_devices. *)
From Verif Require Import Base DevModel.
Open Scope Z_scope.

(** * Buffers *)
Definition good_kind (k : kind) : Prop := 0 < cap k < 2 ^ 32 /\ cap k <= room k.
Lemma file_good : good_kind file_kind. Proof. split; cbn; lia. Qed.
Lemma console_good : good_kind console_kind. Proof. split; cbn; lia. Qed.

Lemma append_ok k b s : good_kind k -> Zlen b <= cap k ->
  let m := Z.min (Zlen s) (cap k - Zlen b) in
  append k b s = Ok (b ++ firstn (Z.to_nat m) s, m).
Proof.
  intros [Hk Hr] Hb. cbn zeta. pose proof (Zlen_nonneg b). pose proof (Zlen_nonneg s).
  unfold append, remaining, u32, two32. rewrite Z.mod_small by lia. unfold put.
  destruct (Zlen s <=? cap k - Zlen b) eqn:E.
  - replace (Zlen b + Zlen s <=? room k) with true by lia. cbn [bind]. rewrite Z.min_l by lia.
    rewrite firstn_all2 by (unfold Zlen; lia). reflexivity.
  - rewrite Z.min_r by lia.
    assert (HL : Zlen (firstn (Z.to_nat (cap k - Zlen b)) s) = cap k - Zlen b).
    { unfold Zlen in *. rewrite firstn_length. lia. }
    rewrite HL. replace (Zlen b + (cap k - Zlen b) <=? room k) with true by lia. reflexivity.
Qed.
Lemma append1_ok k b c : good_kind k -> Zlen b < cap k -> append1 k b c = Ok (b ++ [c], 1).
Proof.
  intros [Hk Hr] Hb. unfold append1, full, put. replace (Zlen b =? cap k) with false by lia.
  change (Zlen [c]) with 1. replace (Zlen b + 1 <=? room k) with true by lia. reflexivity.
Qed.

(** * Console *)
Definition no_nul (s : list Z) : Prop := ~ In 0 s.
Lemma until_nul_id s : no_nul s -> until_nul s = s.
Proof.
  induction s as [|c s IH]; intros H; [reflexivity|]. cbn. destruct (c =? 0) eqn:E; [exfalso; apply H; left; lia|].
  rewrite IH; [reflexivity|]. intros F. apply H. right. exact F.
Qed.
Lemma no_nul_app a b : no_nul (a ++ b) <-> no_nul a /\ no_nul b.
Proof. unfold no_nul. split; [intros H; split; intros F; apply H, in_or_app; auto|intros [A B] F; apply in_app_or in F as [F|F]; auto]. Qed.

Inductive wop := W1 (c : Z) | WN (s : list Z) | WFlush.
Definition con_op (s : sink) (o : wop) : res sink :=
  match o with
  | W1 c => r <- con_write1 s c ;; Ok (fst r)
  | WN l => con_write s l
  | WFlush => con_flush s
  end.
Fixpoint con_run (s : sink) (l : list wop) : res sink :=
  match l with [] => Ok s | o :: l' => s' <- con_op s o ;; con_run s' l' end.
(** Everything a history writes. *)
Definition bytes (o : wop) : list Z := match o with W1 c => [c] | WN s => s | WFlush => [] end.
Definition written (l : list wop) : list Z := flat_map bytes l.

Definition con_inv (s : sink) (w : list Z) : Prop := Zlen (buf s) < 4095 /\ no_nul (buf s) /\ out s ++ buf s = w.

Lemma con_flush_ok s w : Zlen (buf s) <= 4095 -> no_nul (buf s) -> out s ++ buf s = w ->
  con_flush s = Ok (mkSink [] w).
Proof.
  intros H1 H2 H3. unfold con_flush. cbn [room console_kind]. replace (Zlen (buf s) <? 4096) with true by lia.
  rewrite until_nul_id by exact H2. rewrite H3. reflexivity.
Qed.
Lemma con_inv_empty w : con_inv (mkSink [] w) w.
Proof. repeat split; cbn; try (intros []); try lia. apply app_nil_r. Qed.

Lemma con_after s b w : Zlen b <= 4095 -> no_nul b -> out s ++ b = w ->
  exists s', (if full console_kind b then con_flush (mkSink b (out s)) else Ok (mkSink b (out s))) = Ok s' /\ con_inv s' w.
Proof.
  intros H1 H2 H3. unfold full. cbn [cap console_kind]. destruct (Zlen b =? 4095) eqn:E.
  - rewrite (con_flush_ok (mkSink b (out s)) w); auto. eexists. split; [reflexivity|]. apply con_inv_empty.
  - eexists. split; [reflexivity|]. split; [cbn; lia|]. split; assumption.
Qed.

Lemma con_loop_ok : forall fuel s data w, (length data <= fuel)%nat -> no_nul data -> con_inv s w ->
  exists s', con_loop fuel s data = Ok s' /\ con_inv s' (w ++ data).
Proof.
  induction fuel as [|f IH]; intros s data w Hf Hn HI; destruct data as [|c data]; cbn [con_loop].
  - rewrite app_nil_r. eauto.
  - cbn in Hf. lia.
  - rewrite app_nil_r. eauto.
  - set (dd := c :: data) in *. assert (Hne : 0 < Zlen dd) by (unfold dd; rewrite Zlen_cons; pose proof (Zlen_nonneg data); lia).
    destruct HI as (H1 & H2 & H3). rewrite (append_ok console_kind) by (try apply console_good; cbn; lia).
    cbn [bind fst snd cap console_kind]. set (m := Z.min (Zlen dd) (4095 - Zlen (buf s))).
    assert (Hm : 0 < m <= Zlen dd /\ m <= 4095 - Zlen (buf s)) by (unfold m; lia).
    assert (HL : Zlen (firstn (Z.to_nat m) dd) = m) by (unfold Zlen in *; rewrite firstn_length; lia).
    assert (Hsplit : firstn (Z.to_nat m) dd ++ skipn (Z.to_nat m) dd = dd) by apply firstn_skipn.
    assert (Hnn : no_nul (firstn (Z.to_nat m) dd) /\ no_nul (skipn (Z.to_nat m) dd)) by (apply no_nul_app; rewrite Hsplit; exact Hn).
    destruct (con_after s (buf s ++ firstn (Z.to_nat m) dd) (w ++ firstn (Z.to_nat m) dd)) as (s' & HR & HI').
    { rewrite Zlen_app. lia. }
    { apply no_nul_app. tauto. }
    { rewrite app_assoc, H3. reflexivity. }
    rewrite HR. cbn [bind]. destruct (IH s' (skipn (Z.to_nat m) dd) (w ++ firstn (Z.to_nat m) dd)) as (s'' & HR' & HI''); [|tauto|exact HI'|].
    { rewrite skipn_length. unfold Zlen in *. lia. }
    exists s''. split; [exact HR'|]. rewrite <- app_assoc, Hsplit in HI''. exact HI''.
Qed.

Lemma con_op_ok s o w : con_inv s w -> no_nul (bytes o) -> exists s', con_op s o = Ok s' /\ con_inv s' (w ++ bytes o).
Proof.
  intros HI Hn. destruct o as [c|l|]; cbn [con_op bytes].
  - destruct HI as (H1 & H2 & H3). unfold con_write1. rewrite append1_ok by (try apply console_good; cbn; lia). cbn [bind fst snd].
    destruct (con_after s (buf s ++ [c]) (w ++ [c])) as (s' & HR & HI').
    { rewrite Zlen_app. change (Zlen [c]) with 1. lia. }
    { apply no_nul_app. auto. }
    { rewrite app_assoc, H3. reflexivity. }
    rewrite HR. cbn [bind fst]. eauto.
  - unfold con_write. apply con_loop_ok; auto.
  - destruct HI as (H1 & H2 & H3). rewrite (con_flush_ok s w) by (auto; lia). rewrite app_nil_r. eexists. split; [reflexivity|]. apply con_inv_empty.
Qed.

Lemma con_run_ok : forall l s w, con_inv s w -> no_nul (written l) ->
  exists s', con_run s l = Ok s' /\ con_inv s' (w ++ written l).
Proof.
  induction l as [|o l IH]; intros s w HI Hn; cbn [con_run].
  - exists s. rewrite app_nil_r. auto.
  - cbn [written flat_map] in Hn. apply no_nul_app in Hn as [H1 H2]. destruct (con_op_ok s o w HI H1) as (s' & HR & HI').
    rewrite HR. cbn [bind]. destruct (IH s' (w ++ bytes o) HI' H2) as (s'' & HR' & HI''). exists s''. split; [exact HR'|].
    cbn [written flat_map]. rewrite app_assoc. exact HI''.
Qed.

(** No overflow for any bytes. *)
Lemma con_safe : forall l s, Zlen (buf s) < 4095 -> exists s', con_run s l = Ok s' /\ Zlen (buf s') < 4095.
Proof.
  assert (AFT : forall o b, Zlen b <= 4095 ->
    exists s', (if full console_kind b then con_flush (mkSink b o) else Ok (mkSink b o)) = Ok s' /\ Zlen (buf s') < 4095).
  { intros o b Hb. unfold full. cbn [cap console_kind]. destruct (Zlen b =? 4095) eqn:E.
    - unfold con_flush. cbn [room console_kind buf]. replace (Zlen b <? 4096) with true by lia. eexists. split; [reflexivity|]. cbn. lia.
    - eexists. split; [reflexivity|]. cbn. lia. }
  assert (LOOP : forall fuel s data, (length data <= fuel)%nat -> Zlen (buf s) < 4095 -> exists s', con_loop fuel s data = Ok s' /\ Zlen (buf s') < 4095).
  { induction fuel as [|f IH]; intros s data Hf Hs; destruct data as [|c data]; cbn [con_loop]; eauto.
    - cbn in Hf. lia.
    - set (dd := c :: data) in *. assert (Hne : 0 < Zlen dd) by (unfold dd; rewrite Zlen_cons; pose proof (Zlen_nonneg data); lia).
      rewrite (append_ok console_kind) by (try apply console_good; cbn; lia).
      cbn [bind fst snd cap console_kind]. set (m := Z.min (Zlen dd) (4095 - Zlen (buf s))).
      assert (HL : Zlen (firstn (Z.to_nat m) dd) = m) by (unfold Zlen in *; rewrite firstn_length; lia).
      destruct (AFT (out s) (buf s ++ firstn (Z.to_nat m) dd)) as (s' & HR & HI'); [rewrite Zlen_app; lia|].
      rewrite HR. cbn [bind]. apply IH; [|exact HI']. rewrite skipn_length. unfold Zlen in *. lia. }
  induction l as [|o l IH]; intros s Hs; cbn [con_run]; [eauto|].
  assert (OP : exists s', con_op s o = Ok s' /\ Zlen (buf s') < 4095).
  { destruct o as [c|d|]; cbn [con_op].
    - unfold con_write1. rewrite append1_ok by (try apply console_good; cbn; lia). cbn [bind fst snd].
      destruct (AFT (out s) (buf s ++ [c])) as (s' & HR & HI'); [rewrite Zlen_app; change (Zlen [c]) with 1; lia|].
      rewrite HR. cbn [bind fst]. eauto.
    - apply LOOP; auto.
    - unfold con_flush. cbn [room console_kind]. replace (Zlen (buf s) <? 4096) with true by lia. eexists. split; [reflexivity|]. cbn. lia. }
  destruct OP as (s' & HR & Hs'). rewrite HR. cbn [bind]. apply IH. exact Hs'.
Qed.

(** * Shared files, when the operating system accepts every write *)
Definition sf_op (debug : bool) (s : sink) (o : wop) : res sink :=
  match o with
  | W1 c => r <- sf_write1 debug true s c ;; Ok (fst r)
  | WN l => r <- sf_write debug true s l ;; Ok (fst r)
  | WFlush => (* an exception thrown by flush (debug) is caught by the caller; the object is as it was *)
    match sf_flush debug true s with Ok r => Ok (fst r) | Throw _ => Ok s | UB => UB end
  end.
Fixpoint sf_run (debug : bool) (s : sink) (l : list wop) : res sink :=
  match l with [] => Ok s | o :: l' => s' <- sf_op debug s o ;; sf_run debug s' l' end.
Definition sf_inv (s : sink) (w : list Z) : Prop := Zlen (buf s) < 4096 /\ out s ++ buf s = w.

Lemma sf_flush_ok debug b o : b <> [] -> sf_flush debug true (mkSink b o) = Ok (mkSink [] (o ++ b), true).
Proof.
  intros H. unfold sf_flush. cbn [buf out]. destruct b as [|c b]; [congruence|]. rewrite Zlen_cons.
  pose proof (Zlen_nonneg b). replace (1 + Zlen b =? 0) with false by lia. reflexivity.
Qed.
Lemma sf_inv_empty w : sf_inv (mkSink [] w) w.
Proof. split; cbn; [lia|apply app_nil_r]. Qed.

Lemma sf_loop_ok debug n : forall fuel s data w, (length data <= fuel)%nat -> sf_inv s w ->
  exists s', sf_loop fuel debug true s data n = Ok (s', n) /\ sf_inv s' (w ++ data).
Proof.
  induction fuel as [|f IH]; intros s data w Hf HI; destruct data as [|c data]; cbn [sf_loop].
  - rewrite app_nil_r. eauto.
  - cbn in Hf. lia.
  - rewrite app_nil_r. eauto.
  - set (dd := c :: data) in *. assert (Hne : 0 < Zlen dd) by (unfold dd; rewrite Zlen_cons; pose proof (Zlen_nonneg data); lia).
    destruct HI as (H1 & H3). rewrite (append_ok file_kind) by (try apply file_good; cbn; lia).
    cbn [bind fst snd cap file_kind]. set (m := Z.min (Zlen dd) (4096 - Zlen (buf s))).
    pose proof (Zlen_nonneg (buf s)) as Hbn.
    assert (Hm : 0 < m <= Zlen dd /\ m <= 4096 - Zlen (buf s)) by (unfold m; lia).
    assert (HL : Zlen (firstn (Z.to_nat m) dd) = m) by (unfold Zlen in *; rewrite firstn_length; lia).
    assert (Hsplit : firstn (Z.to_nat m) dd ++ skipn (Z.to_nat m) dd = dd) by apply firstn_skipn.
    unfold full. cbn [cap file_kind].
    assert (HN : exists s1, sf_inv s1 (w ++ firstn (Z.to_nat m) dd) /\
      (if Zlen (buf s ++ firstn (Z.to_nat m) dd) =? 4096
       then q <- sf_flush debug true (mkSink (buf s ++ firstn (Z.to_nat m) dd) (out s)) ;;
            (if snd q then sf_loop f debug true (fst q) (skipn (Z.to_nat m) dd) n else Ok (fst q, -1))
       else sf_loop f debug true (mkSink (buf s ++ firstn (Z.to_nat m) dd) (out s)) (skipn (Z.to_nat m) dd) n)
      = sf_loop f debug true s1 (skipn (Z.to_nat m) dd) n).
    { destruct (Zlen (buf s ++ firstn (Z.to_nat m) dd) =? 4096) eqn:E.
      - rewrite sf_flush_ok by (intros F; rewrite F in E; discriminate). cbn [bind fst snd].
        eexists. split; [|reflexivity]. rewrite app_assoc, H3. apply sf_inv_empty.
      - eexists. split; [|reflexivity]. split; cbn [buf out]; [rewrite Zlen_app in *; lia|]. rewrite app_assoc, H3. reflexivity. }
    destruct HN as (s1 & HI1 & ->). destruct (IH s1 (skipn (Z.to_nat m) dd) _ ltac:(rewrite skipn_length; unfold Zlen in *; lia) HI1) as (s'' & HR' & HI'').
    exists s''. split; [exact HR'|]. rewrite <- app_assoc, Hsplit in HI''. exact HI''.
Qed.

Lemma sf_op_ok debug s o w : sf_inv s w -> exists s', sf_op debug s o = Ok s' /\ sf_inv s' (w ++ bytes o).
Proof.
  intros HI. destruct o as [c|l|]; cbn [sf_op bytes].
  - destruct HI as (H1 & H3). unfold sf_write1. rewrite append1_ok by (try apply file_good; cbn; lia). cbn [bind fst snd].
    unfold full. cbn [cap file_kind]. destruct (Zlen (buf s ++ [c]) =? 4096) eqn:E.
    + rewrite sf_flush_ok by (destruct (buf s); discriminate). cbn [bind fst snd]. eexists. split; [reflexivity|].
      rewrite app_assoc, H3. apply sf_inv_empty.
    + cbn [bind fst]. eexists. split; [reflexivity|]. split; cbn [buf out].
      * rewrite Zlen_app in *. change (Zlen [c]) with 1 in *. lia.
      * rewrite app_assoc, H3. reflexivity.
  - unfold sf_write. destruct (sf_loop_ok debug (Zlen l) (length l) s l w) as (s' & HR & HI'); auto.
    rewrite HR. cbn [bind fst]. eauto.
  - rewrite app_nil_r. destruct s as [b o]. cbn [buf] in *. destruct (Zlen b =? 0) eqn:E.
    { assert (b = []) as -> by (destruct b; [reflexivity|]; rewrite Zlen_cons in E; pose proof (Zlen_nonneg b); lia).
      unfold sf_flush. cbn [buf out]. destruct debug; cbn; eauto. }
    rewrite sf_flush_ok by (intros ->; discriminate). cbn [bind fst]. eexists. split; [reflexivity|].
    destruct HI as (H1 & H3). cbn [buf out] in *. rewrite H3. apply sf_inv_empty.
Qed.
Lemma sf_run_ok debug : forall l s w, sf_inv s w -> exists s', sf_run debug s l = Ok s' /\ sf_inv s' (w ++ written l).
Proof.
  induction l as [|o l IH]; intros s w HI; cbn [sf_run].
  - exists s. rewrite app_nil_r. auto.
  - destruct (sf_op_ok debug s o w HI) as (s' & HR & HI').
    rewrite HR. cbn [bind]. destruct (IH s' (w ++ bytes o) HI') as (s'' & HR' & HI''). exists s''. split; [exact HR'|].
    cbn [written flat_map]. rewrite app_assoc. exact HI''.
Qed.

(** * Output files *)
Lemma of_writes_append : forall l old, fcontent (fold_left of_write l (of_open Append old)) = old ++ concat l.
Proof.
  cbn [of_open]. induction l as [|s l IH]; intros old; cbn [fold_left concat].
  - cbn. rewrite app_nil_r. reflexivity.
  - cbn [of_write fpos fcontent]. rewrite IH, app_assoc. reflexivity.
Qed.
Lemma skipn_plus {A} : forall a b (l : list A), skipn b (skipn a l) = skipn (a + b) l.
Proof. induction a as [|a IH]; intros b l; [reflexivity|]. destruct l as [|x l]; [destruct b; reflexivity|]. cbn. apply IH. Qed.
Lemma of_writes_new : forall l old,
  fcontent (fold_left of_write l (of_open New old)) = concat l ++ skipn (length (concat l)) old.
Proof.
  intros l old. cbn [of_open].
  assert (G : forall l w old, fold_left of_write l (mkOfile (w ++ skipn (length w) old) (Some (Zlen w))) =
     mkOfile ((w ++ concat l) ++ skipn (length (w ++ concat l)) old) (Some (Zlen (w ++ concat l)))).
  { clear. induction l as [|s l IH]; intros w old; cbn [fold_left concat].
    - rewrite app_nil_r. reflexivity.
    - cbn [of_write fpos fcontent]. replace (Z.to_nat (Zlen w)) with (length w) by (unfold Zlen; lia).
      rewrite firstn_app, Nat.sub_diag, firstn_all, firstn_O, app_nil_r.
      replace (Z.to_nat (Zlen w + Zlen s)) with (length w + length s)%nat by (unfold Zlen; lia).
      rewrite skipn_app. rewrite (skipn_all2 w) by lia. cbn [app].
      replace (length w + length s - length w)%nat with (length s) by lia.
      assert (SK : skipn (length s) (skipn (length w) old) = skipn (length (w ++ s)) old).
      { rewrite app_length. apply skipn_plus. }
      rewrite SK, app_assoc, <- Zlen_app, IH, <- !app_assoc. reflexivity. }
  specialize (G l [] old). cbn [app length] in G. rewrite skipn_O in G. change (Zlen (@nil Z)) with 0 in G. rewrite G. reflexivity.
Qed.

(** * The string device *)
Lemma firstn_S_snoc {A} : forall (m : list A) k x, nth_error m k = Some x -> firstn (S k) m = firstn k m ++ [x].
Proof. induction m as [|y m IH]; intros k x H; destruct k; cbn in *; try discriminate; [congruence|]. rewrite <- IH by exact H. reflexivity. Qed.

Lemma sstore_all_ok : forall s m p, 0 <= p -> p + Zlen s <= Zlen m ->
  exists m', sstore_all m p s = Ok m' /\ Zlen m' = Zlen m /\ firstn (Z.to_nat (p + Zlen s)) m' = firstn (Z.to_nat p) m ++ s.
Proof.
  induction s as [|c s IH]; intros m p Hp HL; cbn [sstore_all].
  - exists m. znil. rewrite Z.add_0_r, app_nil_r. auto.
  - rewrite Zlen_cons in *. pose proof (Zlen_nonneg s). unfold sstore at 1. replace ((0 <=? p) && (p <? Zlen m)) with true by lia. cbn [bind].
    destruct (IH (zset m p c) (p + 1)) as (m' & H1 & H2 & H3); [lia|rewrite Zlen_zset; lia|].
    exists m'. rewrite Zlen_zset in H2. split; [exact H1|]. split; [exact H2|].
    replace (p + (1 + Zlen s)) with (p + 1 + Zlen s) by lia. rewrite H3.
    assert (HZ : firstn (Z.to_nat (p + 1)) (zset m p c) = firstn (Z.to_nat p) m ++ [c]).
    { rewrite Z2Nat.inj_add by lia. change (Z.to_nat 1) with 1%nat. rewrite Nat.add_1_r.
      rewrite (firstn_S_snoc _ _ c).
      2: { pose proof (zget_zset_eq m p c ltac:(lia)) as HG. unfold zget in HG. replace (p <? 0) with false in HG by lia. exact HG. }
      f_equal. unfold zset. replace (p <? 0) with false by lia.
      clear. revert m. generalize (Z.to_nat p). induction n as [|n IH]; intros m; [reflexivity|]. destruct m; [reflexivity|]. cbn. rewrite IH. reflexivity. }
    rewrite HZ, <- app_assoc. reflexivity.
Qed.

(** History operations and the queue they should implement. *)
Inductive sop := SW1 (c : Z) | SWN (s : list Z) | SR1 | SRN (n : Z) | SClear | SCStr | SStr | SRem.
Definition str_op (d : strdev) (o : sop) : res (strdev * list Z) :=
  match o with
  | SW1 c => d' <- str_write1 d c ;; Ok (d', [])
  | SWN s => d' <- str_write d s ;; Ok (d', [])
  | SR1 => str_read1 d
  | SRN n => str_read d n
  | SClear => Ok (str_clear d, [])
  | SCStr => d' <- str_cstr d ;; s <- sload (smem d') 0 (wpos d' + 1) ;; Ok (d', s)
  | SStr => s <- str_str d ;; Ok (d, s)
  | SRem => Ok (d, [str_remaining d])
  end.
Fixpoint str_run (d : strdev) (l : list sop) : res (list (list Z)) :=
  match l with [] => Ok [] | o :: l' => r <- str_op d o ;; q <- str_run (fst r) l' ;; Ok (snd r :: q) end.
(** Specification: everything written since the start / the last clear, and how much of it is unread. *)
Definition q_op (q : list Z * list Z) (o : sop) : (list Z * list Z) * list Z :=
  let '(all, unread) := q in
  match o with
  | SW1 c => ((all ++ [c], unread ++ [c]), [])
  | SWN s => ((all ++ s, unread ++ s), [])
  | SR1 => ((all, skipn 1 unread), firstn 1 unread)
  | SRN n => ((all, skipn (Z.to_nat n) unread), firstn (Z.to_nat n) unread)
  | SClear => (([], []), [])
  | SCStr => (q, all ++ [0])
  | SStr => (q, all)
  | SRem => (q, [Zlen unread])
  end.
Fixpoint q_run (q : list Z * list Z) (l : list sop) : list (list Z) :=
  match l with [] => [] | o :: l' => snd (q_op q o) :: q_run (fst (q_op q o)) l' end.
(** The histories covered: single-byte writes only before any clear and only up to 256 bytes beyond the
    initial text; block writes, reads and everything else without restriction. *)
Fixpoint safe (base : option Z) (size : Z) (l : list sop) : Prop :=
  match l with
  | [] => True
  | SW1 c :: l' => match base with Some b => size + 1 <= b + 256 /\ safe base (size + 1) l' | None => False end
  | SWN s :: l' => safe base (size + Zlen s) l'
  | SRN n :: l' => 0 <= n /\ safe base size l'
  | SClear :: l' => safe None 0 l'
  | _ :: l' => safe base size l'
  end.

Definition str_inv (base : option Z) (d : strdev) (q : list Z * list Z) : Prop :=
  firstn (Z.to_nat (wpos d)) (smem d) = fst q /\ Zlen (fst q) = wpos d /\
  skipn (Z.to_nat (rpos d)) (fst q) = snd q /\ 0 <= rpos d <= wpos d /\
  wpos d + 1 <= Zlen (smem d) /\ slen d <= Zlen (smem d) /\
  match base with Some b => 0 <= b /\ slen d = b + 1 /\ (wpos d <= slen d - 1 \/ slen d + 256 <= Zlen (smem d)) | None => slen d = 0 end.

Lemma Zlen_alloc n : 0 <= n -> Zlen (alloc n) = n.
Proof. intros H. unfold alloc. rewrite Zlen_repeat. lia. Qed.
Lemma Zlen_firstn {A} n (l : list A) : 0 <= n <= Zlen l -> Zlen (firstn (Z.to_nat n) l) = n.
Proof. intros H. unfold Zlen in *. rewrite firstn_length. lia. Qed.
Lemma Zlen_skipn {A} n (l : list A) : 0 <= n <= Zlen l -> Zlen (skipn (Z.to_nat n) l) = Zlen l - n.
Proof. intros H. unfold Zlen in *. rewrite skipn_length. lia. Qed.

Lemma sload_prefix m p n all : firstn (Z.to_nat p) m = all -> 0 <= p <= Zlen m -> 0 <= n -> forall r, 0 <= r -> r + n <= p ->
  sload m r n = Ok (firstn (Z.to_nat n) (skipn (Z.to_nat r) all)).
Proof.
  intros <- Hp Hn r Hr Hrn. unfold sload. replace ((0 <=? r) && (0 <=? n) && (r + n <=? Zlen m)) with true by lia.
  f_equal. rewrite skipn_firstn_comm, firstn_firstn. f_equal. lia.
Qed.

Lemma str_new_ok s : exists d, str_new s = Ok d /\ str_inv (Some (Zlen s)) d (s, s).
Proof.
  pose proof (Zlen_nonneg s). unfold str_new.
  destruct (sstore_all_ok s (alloc (Zlen s + 1)) 0) as (m & H1 & H2 & H3); [lia|rewrite Zlen_alloc; lia|].
  rewrite H1. cbn [bind]. rewrite Zlen_alloc in H2 by lia. eexists. split; [reflexivity|].
  unfold str_inv. cbn [wpos rpos smem slen fst snd]. replace (Zlen s + 1 - 1) with (Zlen s) by lia.
  rewrite Z.add_0_l in H3. rewrite H3. split; [reflexivity|]. split; [reflexivity|]. split; [reflexivity|]. lia.
Qed.

Lemma str_grow_ok base d q n : str_inv base d q -> 0 <= n ->
  exists m, str_grow d n = Ok (mkStr m (slen d) (wpos d) (rpos d)) /\ Zlen m = wpos d + n + 1 /\ firstn (Z.to_nat (wpos d)) m = fst q.
Proof.
  intros (H1 & H2 & H3 & H4 & H5 & H6 & _) Hn. unfold str_grow.
  rewrite (sload_prefix (smem d) (wpos d) (wpos d) (fst q) H1 ltac:(lia) ltac:(lia) 0) by lia. cbn [bind].
  rewrite skipn_O, firstn_all2 by (unfold Zlen in *; lia).
  destruct (sstore_all_ok (fst q) (alloc (wpos d + n + 1)) 0) as (m & E1 & E2 & E3); [lia|rewrite Zlen_alloc; lia|].
  rewrite E1. cbn [bind]. exists m. split; [reflexivity|]. rewrite Zlen_alloc in E2 by lia. split; [exact E2|].
  rewrite Z.add_0_l, H2 in E3. exact E3.
Qed.

Lemma str_put m wp s all : firstn (Z.to_nat wp) m = all -> 0 <= wp -> wp + Zlen s <= Zlen m ->
  exists m', sstore_all m wp s = Ok m' /\ Zlen m' = Zlen m /\ firstn (Z.to_nat (wp + Zlen s)) m' = all ++ s.
Proof. intros <- Hw HL. apply sstore_all_ok; assumption. Qed.

Lemma skipn_app_le {A} r (a b : list A) : 0 <= r <= Zlen a -> skipn (Z.to_nat r) (a ++ b) = skipn (Z.to_nat r) a ++ b.
Proof. intros H. rewrite skipn_app. unfold Zlen in *. replace (Z.to_nat r - length a)%nat with 0%nat by lia. reflexivity. Qed.

Lemma str_op_ok base d all unread o l : str_inv base d (all, unread) -> safe base (Zlen all) (o :: l) ->
  exists d' base', str_op d o = Ok (d', snd (q_op (all, unread) o)) /\ str_inv base' d' (fst (q_op (all, unread) o)) /\
    safe base' (Zlen (fst (fst (q_op (all, unread) o)))) l.
Proof.
  intros HI HS. pose proof HI as (H1 & H2 & H3 & H4 & H5 & H6 & H7). cbn [fst snd] in *.
  destruct o as [c|s| |n| | | |]; cbn [str_op q_op fst snd].
  - (* single byte *)
    cbn [safe] in HS. destruct base as [b|]; [|destruct HS]. destruct HS as [HS1 HS2]. destruct H7 as (Hb & Hb' & H7).
    unfold str_write1.
    assert (HG : exists m, (if wpos d =? slen d - 1 then str_grow d 256 else Ok d) = Ok (mkStr m (slen d) (wpos d) (rpos d)) /\
       firstn (Z.to_nat (wpos d)) m = all /\ wpos d + 2 <= Zlen m /\ slen d <= Zlen m /\ (wpos d + 1 <= slen d - 1 \/ slen d + 256 <= Zlen m)).
    { destruct (wpos d =? slen d - 1) eqn:E.
      - destruct (str_grow_ok (Some b) d (all, unread) 256 HI ltac:(lia)) as (m & G1 & G2 & G3). exists m. split; [exact G1|]. split; [exact G3|]. lia.
      - exists (smem d). split; [destruct d; reflexivity|]. split; [exact H1|]. lia. }
    destruct HG as (m & -> & G1 & G2 & G3 & G4). cbn [bind smem wpos slen rpos].
    destruct (str_put m (wpos d) [c] all G1 ltac:(lia)) as (m' & P1 & P2 & P3); [change (Zlen [c]) with 1; lia|].
    cbn [sstore_all] in P1. destruct (sstore m (wpos d) c) as [m1| |]; cbn [bind] in *; try discriminate. injection P1 as ->.
    eexists _, (Some b). split; [reflexivity|]. rewrite Zlen_app. change (Zlen [c]) with 1 in *. split; [|exact HS2].
    unfold str_inv. cbn [smem wpos slen rpos fst snd]. rewrite P3, Zlen_app. change (Zlen [c]) with 1. split; [reflexivity|]. split; [lia|].
    split; [rewrite skipn_app_le by lia; rewrite H3; reflexivity|]. lia.
  - cbn [safe] in HS. pose proof (Zlen_nonneg s) as Hs. unfold str_write.
    assert (HG : exists m, (if wpos d >? slen d - 1 - Zlen s then str_grow d (Zlen s + 256) else Ok d) = Ok (mkStr m (slen d) (wpos d) (rpos d)) /\
       firstn (Z.to_nat (wpos d)) m = all /\ wpos d + Zlen s + 1 <= Zlen m /\ slen d <= Zlen m /\
       (slen d = 0 \/ wpos d + Zlen s <= slen d - 1 \/ slen d + 256 <= Zlen m)).
    { destruct (wpos d >? slen d - 1 - Zlen s) eqn:E.
      - destruct (str_grow_ok base d (all, unread) (Zlen s + 256) HI ltac:(lia)) as (m & G1 & G2 & G3). exists m. split; [exact G1|]. split; [exact G3|].
        split; [lia|]. split; [lia|]. destruct base; lia.
      - exists (smem d). split; [destruct d; reflexivity|]. split; [exact H1|]. destruct base; lia. }
    destruct HG as (m & -> & G1 & G2 & G3 & G4). cbn [bind smem wpos slen rpos].
    destruct (str_put m (wpos d) s all G1 ltac:(lia)) as (m' & P1 & P2 & P3); [lia|]. rewrite P1. cbn [bind].
    eexists _, base. split; [reflexivity|]. rewrite Zlen_app. split; [|exact HS].
    unfold str_inv. cbn [smem wpos slen rpos fst snd]. rewrite P3, Zlen_app. split; [reflexivity|]. split; [lia|].
    split; [rewrite skipn_app_le by lia; rewrite H3; reflexivity|]. split; [lia|]. split; [lia|]. split; [lia|]. destruct base; lia.
  - (* read one *)
    cbn [safe] in HS. unfold str_read1, str_remaining.
    assert (HU : Zlen unread = wpos d - rpos d) by (rewrite <- H3, Zlen_skipn; lia).
    destruct (wpos d - rpos d =? 0) eqn:E.
    + assert (unread = []) as -> by (destruct unread; [reflexivity|]; rewrite Zlen_cons in HU; pose proof (Zlen_nonneg unread); lia).
      exists d, base. split; [reflexivity|]. split; [exact HI|exact HS].
    + rewrite (sload_prefix (smem d) (wpos d) 1 all H1 ltac:(lia) ltac:(lia) (rpos d)) by lia. cbn [bind]. rewrite H3.
      eexists _, base. split; [reflexivity|]. split; [|exact HS]. unfold str_inv. cbn [smem wpos slen rpos fst snd].
      split; [exact H1|]. split; [exact H2|]. split; [|split; [lia|]; split; [lia|]; split; [lia|exact H7]].
      rewrite <- H3. replace (Z.to_nat (rpos d + 1)) with (1 + Z.to_nat (rpos d))%nat by lia.
      clear. generalize (Z.to_nat (rpos d)) as k. intros k. revert all. induction k as [|k IH]; intros all; [reflexivity|]. destruct all; [reflexivity|]. cbn in *. apply IH.
  - (* read n *)
    cbn [safe] in HS. destruct HS as [Hn HS]. unfold str_read, str_remaining.
    assert (HU : Zlen unread = wpos d - rpos d) by (rewrite <- H3, Zlen_skipn; lia).
    set (k := if wpos d - rpos d >? n then n else wpos d - rpos d).
    assert (Hk : k = Z.min n (wpos d - rpos d)) by (unfold k; destruct (_ >? _) eqn:E; lia).
    rewrite (sload_prefix (smem d) (wpos d) k all H1 ltac:(lia) ltac:(lia) (rpos d)) by lia. cbn [bind]. rewrite H3.
    assert (HF : firstn (Z.to_nat k) unread = firstn (Z.to_nat n) unread).
    { destruct (Z.le_gt_cases n (wpos d - rpos d)); [f_equal; f_equal; lia|]. rewrite !firstn_all2 by (unfold Zlen in *; lia). reflexivity. }
    rewrite HF. eexists _, base. split; [reflexivity|]. split; [|exact HS]. unfold str_inv. cbn [smem wpos slen rpos fst snd].
    split; [exact H1|]. split; [exact H2|]. split; [|split; [lia|]; split; [lia|]; split; [lia|exact H7]].
    assert (HSK : skipn (Z.to_nat k) unread = skipn (Z.to_nat n) unread).
    { destruct (Z.le_gt_cases n (wpos d - rpos d)); [f_equal; f_equal; lia|]. rewrite !skipn_all2 by (unfold Zlen in *; lia). reflexivity. }
    rewrite <- HSK, <- H3. rewrite Z2Nat.inj_add by lia. generalize (Z.to_nat k) as b, (Z.to_nat (rpos d)) as a. clear.
    intros b a. revert all. induction a as [|a IH]; intros all; [reflexivity|]. destruct all; [destruct b; reflexivity|]. cbn. apply IH.
  - cbn [safe] in HS. eexists _, None. split; [reflexivity|]. split; [|exact HS]. unfold str_inv, str_clear. cbn [smem wpos slen rpos fst snd].
    change (Zlen (alloc 1)) with 1. change (Zlen (@nil Z)) with 0. split; [reflexivity|]. split; [reflexivity|]. split; [reflexivity|]. lia.
  - cbn [safe] in HS. unfold str_cstr, sstore. replace ((0 <=? wpos d) && (wpos d <? Zlen (smem d))) with true by lia. cbn [bind smem wpos].
    destruct (str_put (smem d) (wpos d) [0] all H1 ltac:(lia)) as (m' & P1 & P2 & P3); [change (Zlen [0]) with 1; lia|].
    cbn [sstore_all] in P1. unfold sstore in P1. replace ((0 <=? wpos d) && (wpos d <? Zlen (smem d))) with true in P1 by lia. cbn [bind] in P1.
    injection P1 as P1. change (Zlen [0]) with 1 in P3.
    rewrite P1. rewrite (sload_prefix m' (wpos d + 1) (wpos d + 1) (all ++ [0]) P3 ltac:(lia) ltac:(lia) 0) by lia. cbn [bind].
    rewrite skipn_O, firstn_all2 by (rewrite app_length; unfold Zlen in *; cbn; lia).
    eexists _, base. split; [reflexivity|]. split; [|exact HS]. unfold str_inv. cbn [smem wpos slen rpos fst snd].
    assert (HM : firstn (Z.to_nat (wpos d)) m' = all).
    { replace (Z.to_nat (wpos d)) with (Nat.min (Z.to_nat (wpos d)) (Z.to_nat (wpos d + 1))) by lia. rewrite <- firstn_firstn, P3.
      rewrite firstn_app. rewrite (firstn_all2 all) by (unfold Zlen in *; lia). replace (Z.to_nat (wpos d) - length all)%nat with 0%nat by (unfold Zlen in *; lia).
      rewrite firstn_O, app_nil_r. reflexivity. }
    rewrite HM. split; [reflexivity|]. split; [exact H2|]. split; [exact H3|]. split; [lia|]. split; [lia|]. split; [lia|]. destruct base; lia.
  - cbn [safe] in HS. unfold str_str. rewrite (sload_prefix (smem d) (wpos d) (wpos d) all H1 ltac:(lia) ltac:(lia) 0) by lia. cbn [bind].
    rewrite skipn_O, firstn_all2 by (unfold Zlen in *; lia). exists d, base. auto.
  - cbn [safe] in HS. exists d, base. unfold str_remaining. assert (HU : Zlen unread = wpos d - rpos d) by (rewrite <- H3, Zlen_skipn; lia).
    rewrite HU. auto.
Qed.

Lemma str_run_ok : forall l base d all unread, str_inv base d (all, unread) -> safe base (Zlen all) l ->
  str_run d l = Ok (q_run (all, unread) l).
Proof.
  induction l as [|o l IH]; intros base d all unread HI HS; [reflexivity|].
  destruct (str_op_ok base d all unread o l HI HS) as (d' & base' & H1 & H2 & H3). cbn [str_run q_run]. rewrite H1. cbn [bind fst snd].
  destruct (fst (q_op (all, unread) o)) as [a u] eqn:E. cbn [fst] in H3. rewrite (IH base' d' a u H2 H3). reflexivity.
Qed.

(** * Serial timeouts *)
Lemma wait_short t s : 1 <= t < 100 -> t <= wait_ms (block t s) < t + 5.
Proof.
  intros Ht. unfold block, ceil_div. replace (t <? 100) with true by lia.
  destruct (t <? 5) eqn:E5; [|destruct (t <? 20) eqn:E20].
  - cbn [unblock vtime snooze_ms loops timeout_ms]. unfold wait_ms. cbn [timeout_ms snooze_ms loops vtime].
    replace (t =? -1) with false by lia. replace (t <? 100) with true by lia. cbn [negb andb]. lia.
  - assert (HD : t = 2 * (t ÷ 2) + Z.rem t 2) by apply Z.quot_rem'. pose proof (Z.rem_bound_pos t 2 ltac:(lia) ltac:(lia)).
    destruct (Z.rem t 2 =? 0) eqn:E; cbn [unblock vtime snooze_ms loops timeout_ms]; unfold wait_ms; cbn [timeout_ms snooze_ms loops vtime];
    replace (t =? -1) with false by lia; replace (t <? 100) with true by lia; cbn [negb andb]; lia.
  - assert (HD : t = 5 * (t ÷ 5) + Z.rem t 5) by apply Z.quot_rem'. pose proof (Z.rem_bound_pos t 5 ltac:(lia) ltac:(lia)).
    destruct (Z.rem t 5 =? 0) eqn:E; cbn [unblock vtime snooze_ms loops timeout_ms]; unfold wait_ms; cbn [timeout_ms snooze_ms loops vtime];
    replace (t =? -1) with false by lia; replace (t <? 100) with true by lia; cbn [negb andb]; lia.
Qed.
Lemma wait_long t s : 100 <= t < 25600 -> t - 100 < wait_ms (block t s) <= t.
Proof.
  intros Ht. unfold block. replace (t <? 100) with false by lia. unfold wait_ms. cbn [timeout_ms snooze_ms loops vtime].
  assert (wrap_s 64 t = t) as ->.
  { unfold wrap_s. change (2 ^ (64 - 1)) with 9223372036854775808. rewrite Z.mod_small by (change (2 ^ 64) with 18446744073709551616; lia). ifs; lia. }
  replace (t <? 100) with false by lia. rewrite andb_false_r. rewrite Z.mod_small by lia. lia.
Qed.

(** Polling: the first arrival within the allotted polls is returned. *)
Lemma poll_ok : forall n k polls last, (0 < n)%nat ->
  (exists j, (j < n)%nat /\ polls (k + j)%nat <> 0 /\ (forall i, (i < j)%nat -> polls (k + i)%nat = 0) /\ poll n k polls last = Some (polls (k + j)%nat)) \/
  ((forall i, (i < n)%nat -> polls (k + i)%nat = 0) /\ poll n k polls last = Some 0).
Proof.
  induction n as [|n IH]; intros k polls last Hn; [lia|]. cbn [poll]. destruct (polls k =? 0) eqn:E.
  - destruct n as [|n].
    + right. split; [|reflexivity]. intros i Hi. replace (k + i)%nat with k by lia. lia.
    + destruct (IH (S k) polls (Some 0) ltac:(lia)) as [(j & H1 & H2 & H3 & H4)|[H1 H2]].
      * left. exists (S j). replace (k + S j)%nat with (S k + j)%nat by lia. split; [lia|]. split; [exact H2|]. split; [|exact H4].
        intros i Hi. destruct i as [|i]; [rewrite Nat.add_0_r; lia|]. replace (k + S i)%nat with (S k + i)%nat by lia. apply H3. lia.
      * right. split; [|exact H2]. intros i Hi. destruct i as [|i]; [rewrite Nat.add_0_r; lia|]. replace (k + S i)%nat with (S k + i)%nat by lia. apply H1. lia.
  - left. exists 0%nat. rewrite Nat.add_0_r. split; [lia|]. split; [lia|]. split; [lia|reflexivity].
Qed.

(** * Registry *)
Inductive rop := ROpen (h name : Z) | RClose (h : Z).
Definition reg_op (s : reg) (o : rop) : outcome :=
  match o with ROpen h n => reg_open true h n s | RClose h => reg_close h s end.
Fixpoint reg_run (s : reg) (l : list rop) : outcome :=
  match l with [] => Fine s | o :: l' => match reg_op s o with Fine s' => reg_run s' l' | x => x end end.
(** Specification: which object uses which name, and the open/close events that should have happened. *)
Definition users := list (Z * Z).
Definition count (n : Z) (u : users) : Z := Zlen (filter (fun p => snd p =? n) u).
Definition spec_op (su : users * list (bool * Z)) (o : rop) : users * list (bool * Z) :=
  let '(u, lg) := su in
  match o with
  | ROpen h n => ((h, n) :: u, if count n u =? 0 then lg ++ [(true, n)] else lg)
  | RClose h =>
    match lookup h u with
    | Some n => let u' := DevModel.remove h u in (u', if count n u' =? 0 then lg ++ [(false, n)] else lg)
    | None => su
    end
  end.
Definition spec_run (l : list rop) : users * list (bool * Z) := fold_left spec_op l ([], []).
(** Objects are opened when detached and destroyed when attached. *)
Fixpoint well_used (su : users * list (bool * Z)) (l : list rop) : Prop :=
  match l with
  | [] => True
  | o :: l' =>
    match o with ROpen h n => lookup h (fst su) = None /\ n <> -1 | RClose h => lookup h (fst su) <> None end /\ well_used (spec_op su o) l'
  end.

Lemma lookup_cons k a b l : lookup k ((a, b) :: l) = if a =? k then Some b else lookup k l.
Proof. unfold lookup. cbn [find fst]. destruct (a =? k); reflexivity. Qed.
Lemma lookup_remove k h l : lookup k (DevModel.remove h l) = if k =? h then None else lookup k l.
Proof.
  induction l as [|[a b] l IH]; [cbn; destruct (k =? h); reflexivity|].
  unfold DevModel.remove in *. cbn [filter fst]. destruct (a =? h) eqn:E; cbn [negb].
  - rewrite IH, lookup_cons. destruct (k =? h) eqn:E2; [reflexivity|]. replace (a =? k) with false by lia. reflexivity.
  - rewrite !lookup_cons, IH. destruct (a =? k) eqn:E3; [|reflexivity]. replace (k =? h) with false by lia. reflexivity.
Qed.
Lemma lookup_none_in h u : lookup h u = None <-> ~ In h (map fst u).
Proof.
  induction u as [|[a b] u IH]; [split; [intros _ []|reflexivity]|]. rewrite lookup_cons. cbn [map fst In]. destruct (a =? h) eqn:E.
  - split; [discriminate|]. intros H. exfalso. apply H. left. lia.
  - rewrite IH. split; intros H; [intros [->|H']; [lia|apply H; exact H']|intros H'; apply H; right; exact H'].
Qed.
Lemma count_cons n h m u : count n ((h, m) :: u) = (if m =? n then 1 else 0) + count n u.
Proof. unfold count. cbn [filter snd]. destruct (m =? n); [rewrite Zlen_cons; lia|lia]. Qed.
Lemma count_nonneg n u : 0 <= count n u.
Proof. apply Zlen_nonneg. Qed.
Lemma count_le n u : count n u <= Zlen u.
Proof. induction u as [|[h m] u IH]; [reflexivity|]. rewrite count_cons, Zlen_cons. destruct (m =? n); lia. Qed.
Lemma remove_absent h u : ~ In h (map fst u) -> DevModel.remove h u = u.
Proof.
  induction u as [|[a b] u IH]; [reflexivity|]. cbn [map fst In]. intros H. unfold DevModel.remove in *. cbn [filter fst].
  replace (a =? h) with false by (symmetry; apply Z.eqb_neq; intros ->; apply H; left; reflexivity). cbn [negb]. f_equal. apply IH. intros H'. apply H. right. exact H'.
Qed.
Lemma count_remove h n m u : NoDup (map fst u) -> lookup h u = Some n ->
  count m (DevModel.remove h u) = count m u - (if n =? m then 1 else 0).
Proof.
  induction u as [|[a b] u IH]; [discriminate|]. cbn [map fst]. intros HN HL. inversion HN as [|? ? N1 N2]; subst. rewrite lookup_cons in HL.
  unfold DevModel.remove in *. cbn [filter fst]. destruct (a =? h) eqn:E; cbn [negb].
  - injection HL as ->. fold (DevModel.remove h u). rewrite remove_absent by (replace h with a by lia; exact N1). rewrite count_cons. destruct (n =? m); lia.
  - rewrite !count_cons, IH by assumption. lia.
Qed.
Lemma NoDup_remove_keys h u : NoDup (map fst u) -> NoDup (map fst (DevModel.remove h u)).
Proof.
  induction u as [|[a b] u IH]; [intros; constructor|]. cbn [map fst]. intros HN. inversion HN as [|? ? N1 N2]; subst.
  unfold DevModel.remove in *. cbn [filter fst]. destruct (a =? h); cbn [negb]; [apply IH; exact N2|]. cbn [map fst]. constructor; [|apply IH; exact N2].
  intros H. apply N1. rewrite in_map_iff in *. destruct H as (x & Hx & Hin). exists x. split; [exact Hx|]. apply filter_In in Hin. tauto.
Qed.

Definition reg_inv (s : reg) (su : users * list (bool * Z)) : Prop :=
  locked s = false /\ log s = snd su /\ NoDup (map fst (fst su)) /\
  (forall h, match lookup h (handles s), lookup h (fst su) with
             | Some i, Some n => lookup n (opened s) = Some i | None, None => True | _, _ => False end) /\
  (forall n, match lookup n (opened s) with
             | Some i => zget (heap s) i = Some (mkInst n (count n (fst su)) false true) /\ 0 < count n (fst su)
             | None => count n (fst su) = 0 end).

Lemma reg0_inv : reg_inv reg0 ([], []).
Proof. unfold reg_inv. cbn. split; [reflexivity|]. split; [reflexivity|]. split; [constructor|]. split; intros; exact I || reflexivity. Qed.

Lemma reg_op_ok s su o l : reg_inv s su -> well_used su (o :: l) -> Zlen (fst su) + 1 < two32 ->
  exists s', reg_op s o = Fine s' /\ reg_inv s' (spec_op su o).
Proof.
  intros (HL & HG & HN & HH & HO) HW HB. destruct su as [u lg]. cbn [fst snd] in *. cbn [well_used fst] in HW. destruct HW as [HW _].
  destruct o as [h n|h]; cbn [reg_op spec_op].
  - destruct HW as [HW Hn]. unfold reg_open. rewrite HL. pose proof (HO n) as HOn. pose proof (count_le n u). pose proof (count_nonneg n u).
    assert (HND : NoDup (map fst ((h, n) :: u))) by (cbn; constructor; [apply lookup_none_in; exact HW|exact HN]).
    destruct (lookup n (opened s)) as [i|] eqn:EO.
    + destruct HOn as [HI HC]. rewrite HI. cbn [ilive iname icount]. eexists. split; [reflexivity|].
      pose proof (zget_some (heap s) i) as HB1. assert (Hi : 0 <= i < Zlen (heap s)).
      { destruct (zget_inv _ _ _ HI) as [? ?]; lia. }
      unfold reg_inv. cbn [locked log handles opened heap fst snd]. split; [reflexivity|]. split; [replace (count n u =? 0) with false by lia; exact HG|].
      split; [exact HND|]. split.
      * intros k. rewrite !lookup_cons. destruct (h =? k); [exact EO|]. apply HH.
      * intros m. pose proof (HO m) as HOm. destruct (lookup m (opened s)) as [j|] eqn:EM.
        -- destruct HOm as [HJ HC2]. rewrite count_cons. destruct (n =? m) eqn:E.
           ++ assert (m = n) as -> by lia. assert (j = i) as -> by congruence. rewrite zget_zset_eq by lia. split; [|lia]. rewrite Z.add_comm. unfold u32. rewrite Z.mod_small by lia. reflexivity.
           ++ assert (j <> i). { intros ->. rewrite HJ in HI. injection HI as Hm _. lia. }
              rewrite zget_zset_neq by lia. rewrite HJ, Z.add_0_l. split; [reflexivity|exact HC2].
        -- rewrite count_cons. destruct (n =? m) eqn:E; [|lia]. assert (m = n) as -> by lia. congruence.
    + eexists. split; [reflexivity|]. unfold reg_inv. cbn [locked log handles opened heap fst snd]. split; [reflexivity|].
      split; [rewrite HOn; cbn; rewrite HG; reflexivity|]. split; [exact HND|]. split.
      * intros k. rewrite !lookup_cons. destruct (h =? k); [rewrite lookup_cons, Z.eqb_refl; reflexivity|]. specialize (HH k).
        destruct (lookup k (handles s)) as [i|], (lookup k u) as [m|]; try exact HH. rewrite lookup_cons. destruct (n =? m) eqn:E; [|exact HH].
        assert (m = n) as -> by lia. congruence.
      * intros m. rewrite lookup_cons, count_cons. destruct (n =? m) eqn:E.
        -- assert (m = n) as -> by lia. rewrite zget_app_r by lia. rewrite Z.sub_diag, HOn. split; [reflexivity|lia].
        -- pose proof (HO m) as HOm. destruct (lookup m (opened s)) as [j|] eqn:EM; [|lia]. destruct HOm as [HJ HC2]. rewrite Z.add_0_l. split; [|exact HC2].
           destruct (zget_inv _ _ _ HJ) as [? ?]. rewrite zget_app_l by lia. exact HJ.
  - unfold reg_close. pose proof (HH h) as HHh. destruct (lookup h u) as [n|] eqn:EU; [|exfalso; apply HW; reflexivity].
    destruct (lookup h (handles s)) as [i|] eqn:EH; [|destruct HHh]. pose proof (HO n) as HOn. rewrite HHh in HOn. destruct HOn as [HI HC].
    rewrite HI. cbn [ilive ierr iname icount negb]. rewrite HL, HHh, HI. cbn [ilive ierr iname icount negb].
    pose proof (count_le n u). destruct (zget_inv _ _ _ HI) as [? ?].
    pose proof (NoDup_remove_keys h u HN) as HND.
    assert (HHH : forall op, (forall k j m, k <> h -> lookup k (handles s) = Some j -> lookup k u = Some m -> lookup m (opened s) = Some j -> lookup m op = Some j) ->
      forall k, match lookup k (DevModel.remove h (handles s)), lookup k (DevModel.remove h u) with
                | Some i, Some n => lookup n op = Some i | None, None => True | _, _ => False end).
    { intros op Hop k. rewrite !lookup_remove. destruct (k =? h) eqn:E; [exact I|]. specialize (HH k).
      destruct (lookup k (handles s)) as [j|] eqn:E1, (lookup k u) as [m|] eqn:E2; try exact HH. apply (Hop k j m); [lia|exact E1|exact E2|exact HH]. }
    destruct (count n u =? 1) eqn:EC.
    + eexists. split; [reflexivity|]. unfold reg_inv. cbn [locked log handles opened heap fst snd]. split; [reflexivity|].
      assert (HC0 : count n (DevModel.remove h u) = 0) by (rewrite (count_remove h n n u HN EU), Z.eqb_refl; lia).
      split; [rewrite HC0; cbn; rewrite HG; reflexivity|]. split; [exact HND|]. split.
      * apply HHH. intros k j m Hk E1 E2 E3. rewrite lookup_remove. destruct (m =? n) eqn:E; [|exact E3]. exfalso. assert (m = n) as -> by lia.
        (* k uses n too: two users *)
        assert (HC1 : 0 < count n (DevModel.remove h u)); [|lia].
        assert (EK : lookup k (DevModel.remove h u) = Some n) by (rewrite lookup_remove; replace (k =? h) with false by lia; exact E2).
        pose proof (count_remove k n n _ HND EK) as HQ. rewrite Z.eqb_refl in HQ. pose proof (count_nonneg n (DevModel.remove k (DevModel.remove h u))). lia.
      * intros m. rewrite lookup_remove, (count_remove h n m u HN EU). destruct (m =? n) eqn:E.
        -- assert (m = n) as -> by lia. rewrite Z.eqb_refl. lia.
        -- replace (n =? m) with false by lia. pose proof (HO m) as HOm. destruct (lookup m (opened s)) as [j|] eqn:EM; [|lia].
           destruct HOm as [HJ HC2]. assert (j <> i). { intros ->. rewrite HJ in HI. injection HI as Hm _. lia. }
           rewrite zget_zset_neq by lia. rewrite HJ, Z.sub_0_r. split; [reflexivity|exact HC2].
    + eexists. split; [reflexivity|]. unfold reg_inv. cbn [locked log handles opened heap fst snd]. split; [reflexivity|].
      assert (HC0 : count n (DevModel.remove h u) = count n u - 1) by (rewrite (count_remove h n n u HN EU), Z.eqb_refl; lia).
      split; [replace (count n (DevModel.remove h u) =? 0) with false by lia; exact HG|]. split; [exact HND|]. split; [apply HHH; intros; assumption|].
      intros m. rewrite (count_remove h n m u HN EU). pose proof (HO m) as HOm. destruct (lookup m (opened s)) as [j|] eqn:EM.
      * destruct HOm as [HJ HC2]. destruct (n =? m) eqn:E.
        -- assert (m = n) as -> by lia. assert (j = i) as -> by congruence. rewrite zget_zset_eq by lia. split; [|lia].
           unfold u32. rewrite Z.mod_small by lia. reflexivity.
        -- assert (j <> i). { intros ->. rewrite HJ in HI. injection HI as Hm _. lia. }
           rewrite zget_zset_neq by lia. rewrite HJ, Z.sub_0_r. split; [reflexivity|exact HC2].
      * destruct (n =? m) eqn:E; [|lia]. assert (m = n) as -> by lia. congruence.
Qed.

Lemma spec_op_len su o : Zlen (fst (spec_op su o)) <= Zlen (fst su) + 1.
Proof.
  destruct su as [u lg]. destruct o as [h n|h]; cbn [spec_op fst]; [rewrite Zlen_cons; lia|]. destruct (lookup h u); cbn [fst]; [|lia].
  assert (Zlen (DevModel.remove h u) <= Zlen u); [|lia]. clear.
  induction u as [|[a b] u IH]; [reflexivity|]. unfold DevModel.remove in *. cbn [filter fst]. destruct (a =? h); cbn [negb]; rewrite ?Zlen_cons; lia.
Qed.

Lemma reg_run_ok : forall l s su, reg_inv s su -> well_used su l -> Zlen (fst su) + Zlen l < two32 ->
  exists s', reg_run s l = Fine s' /\ reg_inv s' (fold_left spec_op l su).
Proof.
  induction l as [|o l IH]; intros s su HI HW HB; [exists s; auto|]. rewrite Zlen_cons in HB. pose proof (Zlen_nonneg l).
  destruct (reg_op_ok s su o l HI HW ltac:(lia)) as (s1 & H1 & H2). cbn [reg_run fold_left]. rewrite H1. apply IH; [exact H2|destruct HW; assumption|].
  pose proof (spec_op_len su o). lia.
Qed.

Lemma reg_inv_count s su h n : reg_inv s su -> lookup h (fst su) = Some n -> reg_count s h = Some (count n (fst su)).
Proof.
  intros (_ & _ & _ & HH & HO) E. unfold reg_count. specialize (HH h). rewrite E in HH. destruct (lookup h (handles s)) as [i|]; [|destruct HH].
  specialize (HO n). rewrite HH in HO. destruct HO as [-> _]. reflexivity.
Qed.

Lemma con_run_app a b s : con_run s (a ++ b) = (s' <- con_run s a ;; con_run s' b).
Proof. revert s. induction a as [|o a IH]; intros s; cbn [app con_run]; [reflexivity|]. destruct (con_op s o); cbn [bind]; [apply IH|reflexivity|reflexivity]. Qed.
Lemma sf_run_app debug a b s : sf_run debug s (a ++ b) = (s' <- sf_run debug s a ;; sf_run debug s' b).
Proof. revert s. induction a as [|o a IH]; intros s; cbn [app sf_run]; [reflexivity|]. destruct (sf_op debug s o); cbn [bind]; [apply IH|reflexivity|reflexivity]. Qed.
Lemma flush_hands_over debug l :
  (exists s, sf_run debug (mkSink [] []) (l ++ [WFlush]) = Ok s /\ out s = written l) /\
  (no_nul (written l) -> exists s, con_run (mkSink [] []) (l ++ [WFlush]) = Ok s /\ out s = written l).
Proof.
  split.
  - destruct (sf_run_ok debug l (mkSink [] []) [] (sf_inv_empty [])) as (s & H1 & H2 & H3). rewrite sf_run_app, H1. cbn [bind sf_run sf_op app] in *.
    destruct s as [b o]. cbn [buf out] in *. destruct b as [|c b].
    + rewrite app_nil_r in H3. unfold sf_flush. cbn [buf out]. destruct debug; cbn; exists (mkSink [] o); auto.
    + rewrite sf_flush_ok by discriminate. cbn [bind fst]. eexists. split; [reflexivity|]. exact H3.
  - intros Hn. destruct (con_run_ok l (mkSink [] []) [] (con_inv_empty []) Hn) as (s & H1 & H2 & H3 & H4). rewrite con_run_app, H1.
    cbn [bind con_run con_op app] in *. rewrite (con_flush_ok s (written l)) by (auto; lia). cbn [bind]. eexists. split; [reflexivity|]. reflexivity.
Qed.

Lemma wait_bounded t s : 100 <= t < 2 ^ 63 -> wait_ms (block t s) <= 25500.
Proof.
  intros Ht. unfold block. replace (t <? 100) with false by lia. unfold wait_ms. cbn [timeout_ms snooze_ms loops vtime].
  assert (wrap_s 64 t = t) as ->.
  { unfold wrap_s. change (2 ^ (64 - 1)) with 9223372036854775808. change (2 ^ 63) with 9223372036854775808 in Ht.
    rewrite Z.mod_small by (change (2 ^ 64) with 18446744073709551616; lia). ifs; lia. }
  replace (t <? 100) with false by lia. rewrite andb_false_r. pose proof (Z.mod_pos_bound (t / 100) 256). lia.
Qed.
Lemma icon_read_ok debug ch : 0 <= ch < 255 -> icon_read debug ch = Ok (1, wrap_s 8 ch).
Proof.
  intros H. unfold icon_read. assert (wrap_s 8 ch <> -1) as E.
  { unfold wrap_s. change (2 ^ (8 - 1)) with 128. change (2 ^ 8) with 256. ifs; lia. }
  replace (wrap_s 8 ch =? -1) with false by lia. reflexivity.
Qed.
Lemma block_short t s : 1 <= t < 100 -> timeout_ms (block t s) = t /\ 1 <= loops (block t s).
Proof.
  intros Ht. unfold block, ceil_div. replace (t <? 100) with true by lia.
  destruct (t <? 5) eqn:E5; [|destruct (t <? 20) eqn:E20].
  - cbn. lia.
  - assert (HD : t = 2 * (t ÷ 2) + Z.rem t 2) by apply Z.quot_rem'. pose proof (Z.rem_bound_pos t 2 ltac:(lia) ltac:(lia)).
    cbn [unblock vtime snooze_ms loops timeout_ms]. split; [reflexivity|]. destruct (Z.rem t 2 =? 0) eqn:E; lia.
  - assert (HD : t = 5 * (t ÷ 5) + Z.rem t 5) by apply Z.quot_rem'. pose proof (Z.rem_bound_pos t 5 ltac:(lia) ltac:(lia)).
    cbn [unblock vtime snooze_ms loops timeout_ms]. split; [reflexivity|]. destruct (Z.rem t 5 =? 0) eqn:E; lia.
Qed.
Lemma ser_read_ok debug t s polls : 1 <= t < 100 -> (forall k, 0 <= polls k) ->
  (exists j, (j < Z.to_nat (loops (block t s)))%nat /\ 0 < polls j /\ (forall i, (i < j)%nat -> polls i = 0) /\
             ser_read1 debug (block t s) polls = Ok (polls j)) \/
  ((forall i, (i < Z.to_nat (loops (block t s)))%nat -> polls i = 0) /\ ser_read1 debug (block t s) polls = Ok 0).
Proof.
  intros Ht Hp. destruct (block_short t s Ht) as [H1 H2]. unfold ser_read1. rewrite H1.
  replace (t =? -1) with false by lia. replace (t <? 100) with true by lia. cbn [negb andb].
  destruct (poll_ok (Z.to_nat (loops (block t s))) 0 polls None ltac:(lia)) as [(j & P1 & P2 & P3 & P4)|[P1 P2]].
  - left. exists j. cbn [Nat.add] in *. pose proof (Hp j). rewrite P4. replace (polls j <? 0) with false by lia. split; [exact P1|]. split; [lia|]. split; [exact P3|reflexivity].
  - right. split; [exact P1|]. rewrite P2. reflexivity.
Qed.
