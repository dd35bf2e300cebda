(** Specifications and lemmas for log streams. *)
From Coq Require Import List ZArith Lia Bool.
From Verif Require Import Base DevModel DevProofs TimeModel LogModel.
Import ListNotations.
Open Scope Z_scope.

(** * What the calls of one thread should leave in the file *)

(** The calls are listed with the latest first. The header a mode has: the one it was last switched on with. *)
Fixpoint switched_on (past : list call) (m : Z) : option (list Z) :=
  match past with
  | [] => None
  | EnableMode k h :: tl =>
      if k =? m then match switched_on tl m with Some h0 => Some h0 | None => Some h end else switched_on tl m
  | DisableMode k :: tl => if k =? m then None else switched_on tl m
  | _ :: tl => switched_on tl m
  end.
Fixpoint header_on (past : list call) : bool :=
  match past with [] => true | EnableHeader :: _ => true | DisableHeader :: _ => false | _ :: tl => header_on tl end.
Fixpoint stamp_on (past : list call) : bool :=
  match past with [] => true | EnableStamp :: _ => true | DisableStamp :: _ => false | _ :: tl => stamp_on tl end.
(** The text of a message. *)
Definition message (stamp header : bool) (now : ts) (h text : list Z) : list Z :=
  (if stamp then ts_print now ++ [32] else []) ++ (if header then [91] ++ h ++ [93; 32] else []) ++
  (if stamp || header then [58; 32] else []) ++ text.
(** The text of one call, after the given past. *)
Definition said (past : list call) (k : call) : list Z :=
  match k with
  | LOG m now text =>
      match switched_on past m with
      | Some h => message (stamp_on past) (header_on past) now h text
      | None => []
      end
  | _ => []
  end.
Fixpoint told (past : list call) : list Z :=
  match past with [] => [] | k :: tl => told tl ++ said tl k end.
Definition macros_only (l : list call) : Prop := Forall (fun k => match k with Direct _ _ _ => False | _ => True end) l.

(** * The configuration follows the past *)

Definition follows (past : list call) (c : cfg) : Prop :=
  c_header c = Some (header_on past) /\ c_stamp c = Some (stamp_on past) /\
  forall m, find_mode (c_modes c) m = switched_on past m.

Lemma find_insert l m h k : find_mode (insert_mode l m h) k =
  if m =? k then match find_mode l k with Some h0 => Some h0 | None => Some h end else find_mode l k.
Proof.
  unfold insert_mode. destruct (m =? k) eqn:E.
  - apply Z.eqb_eq in E. subst k. destruct (find_mode l m) eqn:F; [now rewrite F|]. cbn. now rewrite Z.eqb_refl.
  - destruct (find_mode l m); [reflexivity|]. cbn. now rewrite E.
Qed.
Lemma find_erase l m k : find_mode (erase_mode l m) k = if m =? k then None else find_mode l k.
Proof.
  induction l as [|[a h] l IH]; cbn; [now destruct (m =? k)|]. destruct (a =? m) eqn:E; cbn.
  - fold (erase_mode l m). rewrite IH. apply Z.eqb_eq in E. subst a. destruct (m =? k); reflexivity.
  - fold (erase_mode l m). rewrite IH. destruct (a =? k) eqn:F; [|reflexivity]. apply Z.eqb_eq in F. subst a. now rewrite Z.eqb_sym, E.
Qed.
Lemma insert_present l m h h' : find_mode l m = Some h -> insert_mode l m h' = l.
Proof. intros E. unfold insert_mode. now rewrite E. Qed.

Fixpoint bytes_of (l : list micro) : list Z :=
  match l with [] => [] | Byte c :: tl => c :: bytes_of tl | DoFlush :: tl => bytes_of tl end.
Lemma bytes_of_map l : bytes_of (map Byte l) = l.
Proof. induction l; cbn; congruence. Qed.

Lemma expand_follows past c k : follows past c -> match k with Direct _ _ _ => False | _ => True end ->
  exists c' todo, expand c k = Ok (c', todo) /\ follows (k :: past) c' /\ bytes_of todo = said past k.
Proof.
  intros (H & S & M) D. destruct k as [m h|m| | | | |m now text| |m now text]; cbn [expand]; try (eexists; eexists; split; [reflexivity|]; split; [|reflexivity]; repeat split; cbn; auto; fail).
  - eexists; eexists; split; [reflexivity|]; split; [|reflexivity]. repeat split; cbn; auto. intros k. rewrite find_insert, M. reflexivity.
  - eexists; eexists; split; [reflexivity|]; split; [|reflexivity]. repeat split; cbn; auto. intros k. rewrite find_erase, M. reflexivity.
  - unfold is_mode_enabled. destruct (find_mode (c_modes c) m) as [h|] eqn:F.
    + unfold log_prefix. rewrite H, S, F. cbn [bind fst snd]. eexists; eexists; split; [reflexivity|]. split.
      * destruct (header_on past) eqn:HO; repeat split; cbn; rewrite ?HO; auto. intros k. rewrite (insert_present _ _ _ _ F). apply M.
      * rewrite bytes_of_map. cbn [said]. rewrite <- M, F. unfold message. now rewrite <- !app_assoc.
    + eexists; eexists; split; [reflexivity|]. split; [repeat split; cbn; auto|]. cbn [said]. now rewrite <- M, F.
  - destruct (is_enabled c); eexists; eexists; (split; [reflexivity|]); (split; [repeat split; cbn; auto|reflexivity]).
  - contradiction.
Qed.

(** * Every schedule *)

(** What thread i has put into the file: the bytes of the file carry the number of the thread they came from. *)
Definition of_thread (i : nat) (l : list (nat * Z)) : list Z := map snd (filter (fun p => Nat.eqb (fst p) i) l).
Lemma of_thread_app i a b : of_thread i (a ++ b) = of_thread i a ++ of_thread i b.
Proof. unfold of_thread. now rewrite filter_app, map_app. Qed.
Lemma of_thread_own i l : of_thread i (map (pair i) l) = l.
Proof. induction l as [|x l IH]; cbn; [reflexivity|]. rewrite Nat.eqb_refl. cbn. f_equal. exact IH. Qed.
Lemma of_thread_other i j l : i <> j -> of_thread i (map (pair j) l) = [].
Proof.
  intros N. induction l as [|x l IH]; cbn; [reflexivity|]. replace (Nat.eqb j i) with false by (symmetry; apply Nat.eqb_neq; congruence). exact IH.
Qed.
Lemma map_snd_pair (i : nat) (l : list Z) : map snd (map (pair i) l) = l.
Proof. induction l; cbn; congruence. Qed.

Lemma write1_cases debug b f c : Zlen b < 4096 ->
  exists b' e, sf_write1 debug true (mkSink b f) c = Ok (mkSink b' (f ++ e), 1) /\ e ++ b' = b ++ [c] /\ Zlen b' < 4096 /\
    (e = [] \/ b' = [] /\ Zlen b = 4095).
Proof.
  intros L. unfold sf_write1. cbn [buf out]. rewrite append1_ok by (try apply file_good; cbn; lia). cbn [bind fst snd].
  unfold full. cbn [cap file_kind]. destruct (Zlen (b ++ [c]) =? 4096) eqn:E.
  - rewrite sf_flush_ok by (destruct b; discriminate). cbn [bind fst snd]. exists [], (b ++ [c]). rewrite app_nil_r.
    repeat split; auto; try (cbn; lia). right. split; [reflexivity|]. apply Z.eqb_eq in E. rewrite Zlen_app in E. change (Zlen [c]) with 1 in E. lia.
  - exists (b ++ [c]), []. rewrite app_nil_r. apply Z.eqb_neq in E. rewrite Zlen_app in *. change (Zlen [c]) with 1 in *.
    repeat split; auto. lia.
Qed.
Lemma flush_cases debug b f :
  (b = [] /\ (sf_flush debug true (mkSink b f) = Throw WriteError \/ sf_flush debug true (mkSink b f) = Ok (mkSink [] f, false))) \/
  (b <> [] /\ sf_flush debug true (mkSink b f) = Ok (mkSink [] (f ++ b), true)).
Proof.
  destruct b as [|x b].
  - left. split; [reflexivity|]. unfold sf_flush. cbn. destruct debug; auto.
  - right. split; [discriminate|]. now apply sf_flush_ok.
Qed.

(** A block write is a write of its bytes, one by one. *)
Fixpoint write_bytes (debug : bool) (s : sink) (data : list Z) : res sink :=
  match data with [] => Ok s | c :: tl => r <- sf_write1 debug true s c ;; write_bytes debug (fst r) tl end.
Lemma write_bytes_app debug a : forall s b, write_bytes debug s (a ++ b) = (s' <- write_bytes debug s a ;; write_bytes debug s' b).
Proof. induction a as [|c a IH]; intros s b; cbn; [reflexivity|]. destruct (sf_write1 debug true s c); cbn; auto. Qed.
Lemma write_bytes_chunk debug : forall data b f, data <> [] -> Zlen b + Zlen data <= 4096 ->
  write_bytes debug (mkSink b f) data = Ok (if Zlen b + Zlen data =? 4096 then mkSink [] (f ++ b ++ data) else mkSink (b ++ data) f).
Proof.
  induction data as [|c data IH]; intros b f N L; [contradiction|]. cbn [write_bytes]. rewrite (Zlen_cons c data) in L. rewrite (Zlen_cons c data).
  unfold sf_write1. cbn [buf out]. pose proof (Zlen_nonneg data). pose proof (Zlen_nonneg b).
  rewrite append1_ok by (try apply file_good; cbn; lia). cbn [bind fst snd]. unfold full. cbn [cap file_kind].
  rewrite Zlen_app. change (Zlen [c]) with 1. destruct data as [|d data].
  - change (Zlen []) with 0 in *. replace (1 + 0) with 1 by reflexivity. destruct (Zlen b + 1 =? 4096) eqn:E.
    + rewrite sf_flush_ok by (destruct b; discriminate). cbn. reflexivity.
    + cbn. reflexivity.
  - rewrite (Zlen_cons d data) in *. pose proof (Zlen_nonneg data). replace (Zlen b + 1 =? 4096) with false by (symmetry; apply Z.eqb_neq; lia). cbn [bind fst].
    rewrite IH; [|discriminate|rewrite Zlen_app; change (Zlen [c]) with 1; lia].
    rewrite Zlen_app. change (Zlen [c]) with 1. rewrite <- !app_assoc. cbn [app].
    replace (Zlen b + 1 + (1 + Zlen data)) with (Zlen b + (1 + (1 + Zlen data))) by ring. reflexivity.
Qed.
Lemma loop_is_bytes debug n : forall fuel data s, (length data <= fuel)%nat -> Zlen (buf s) < 4096 ->
  sf_loop fuel debug true s data n = (s' <- write_bytes debug s data ;; Ok (s', n)).
Proof.
  induction fuel as [|fuel IH]; intros data s Hf L; destruct data as [|c data]; cbn [sf_loop]; try reflexivity; [cbn in Hf; lia|].
  destruct s as [b f]. cbn [buf out] in *. rewrite (append_ok file_kind) by (try apply file_good; cbn; lia).
  cbn [bind fst snd cap file_kind]. set (dd := c :: data) in *. pose proof (Zlen_nonneg b).
  assert (HD : 1 <= Zlen dd) by (unfold dd; rewrite Zlen_cons; pose proof (Zlen_nonneg data); lia).
  set (m := Z.min (Zlen dd) (4096 - Zlen b)). assert (Hm : 1 <= m <= Zlen dd /\ m <= 4096 - Zlen b) by (unfold m; lia).
  assert (HL : Zlen (firstn (Z.to_nat m) dd) = m) by (unfold Zlen in *; rewrite firstn_length; lia).
  assert (HN : firstn (Z.to_nat m) dd <> []) by (intros E; rewrite E in HL; cbn in HL; lia).
  assert (HW : write_bytes debug (mkSink b f) dd = write_bytes debug (mkSink b f) (firstn (Z.to_nat m) dd ++ skipn (Z.to_nat m) dd)) by now rewrite firstn_skipn.
  rewrite HW, write_bytes_app, (write_bytes_chunk debug _ b f HN) by lia. cbn [bind].
  unfold full. cbn [cap file_kind]. rewrite Zlen_app, HL. destruct (Zlen b + m =? 4096) eqn:E.
  - rewrite sf_flush_ok by (intros F; apply app_eq_nil in F; tauto). cbn [bind fst snd].
    apply IH; [rewrite skipn_length; unfold Zlen in *; lia|cbn; lia].
  - apply IH; [rewrite skipn_length; unfold Zlen in *; lia|]. cbn. rewrite Zlen_app, HL. apply Z.eqb_neq in E. lia.
Qed.
Lemma block_is_bytes debug s data : Zlen (buf s) < 4096 ->
  sf_write debug true s data = (s' <- write_bytes debug s data ;; Ok (s', Zlen data)).
Proof. intros L. unfold sf_write. now apply loop_is_bytes. Qed.

Lemma upd_same f i t : upd f i t i = t.
Proof. unfold upd. now rewrite Nat.eqb_refl. Qed.
Lemma upd_other f i j t : j <> i -> upd f i t j = f j.
Proof. intros N. unfold upd. now replace (Nat.eqb j i) with false by (symmetry; now apply Nat.eqb_neq). Qed.

(** After a FLUSH with some mode on, nothing is left behind. *)
Definition someone (past : list call) : Prop := exists m, switched_on past m <> None.
Definition flushed (past : list call) (t : thr) : Prop :=
  match past with
  | FLUSH :: p => someone p -> t_todo t = [DoFlush] \/ t_todo t = [] /\ t_buf t = []
  | _ => True
  end.
Lemma enabled_someone past c : follows past c -> (is_enabled c = true <-> someone past).
Proof.
  intros (_ & _ & M). unfold is_enabled, someone. split.
  - intros E. destruct (c_modes c) as [|[k h] l] eqn:F; [discriminate|]. exists k. rewrite <- M. cbn. now rewrite Z.eqb_refl.
  - intros [m N]. rewrite <- M in N. destruct (c_modes c) as [|p l]; [now destruct N|]. rewrite Zlen_cons. pose proof (Zlen_nonneg l). apply Z.ltb_lt. lia.
Qed.

Definition inv (old : list Z) (progs : nat -> list call) (s : sys) (l : list (nat * Z)) : Prop :=
  s_file s = old ++ map snd l /\
  forall i, exists past, progs i = rev past ++ t_prog (s_thr s i) /\ follows past (t_cfg (s_thr s i)) /\
    (Zlen (t_buf (s_thr s i)) < 4096) /\
    of_thread i l ++ t_buf (s_thr s i) ++ bytes_of (t_todo (s_thr s i)) = told past /\ flushed past (s_thr s i).

Lemma inv_start old progs : inv old progs (start cfg_new old progs) [].
Proof.
  split; [cbn; now rewrite app_nil_r|]. intros i. exists []. repeat split; cbn; auto; try lia.
Qed.
Lemma inv_others old progs s l i e t : inv old progs s l -> forall j, j <> i ->
  exists past, progs j = rev past ++ t_prog (upd (s_thr s) i t j) /\ follows past (t_cfg (upd (s_thr s) i t j)) /\
    (Zlen (t_buf (upd (s_thr s) i t j)) < 4096) /\
    of_thread j (l ++ map (pair i) e) ++ t_buf (upd (s_thr s) i t j) ++ bytes_of (t_todo (upd (s_thr s) i t j)) = told past /\
    flushed past (upd (s_thr s) i t j).
Proof.
  intros [_ I] j N. rewrite !upd_other by exact N. rewrite of_thread_app, (of_thread_other j i e N), app_nil_r. apply I.
Qed.
Lemma inv_step debug old progs s l i : (forall i, macros_only (progs i)) -> inv old progs s l ->
  exists s' l', step debug s i = Ok s' /\ inv old progs s' l'.
Proof.
  intros MO I. pose proof (proj1 I) as F. destruct (proj2 I i) as (past & P & C & L & T & FL).
  unfold step. destruct (s_thr s i) as [c b todo prog ra] eqn:ET. cbn [t_cfg t_buf t_todo t_prog t_raised] in *.
  destruct todo as [|[x|] todo].
  - destruct prog as [|k prog].
    + exists s, l. split; [reflexivity|exact I].
    + assert (D : match k with Direct _ _ _ => False | _ => True end).
      { pose proof (MO i) as M. rewrite P in M. apply Forall_app in M. destruct M as [_ M]. now inversion M. }
      destruct (expand_follows past c k C D) as (c' & todo' & E & C' & B). rewrite E. cbn [bind fst snd].
      eexists; exists l; split; [reflexivity|]. split; [exact F|]. intros j. destruct (Nat.eq_dec j i) as [->|N].
      * cbn [s_thr]. rewrite upd_same. cbn [t_cfg t_buf t_todo t_prog]. exists (k :: past). cbn [rev]. rewrite <- app_assoc. cbn.
        split; [exact P|]. split; [exact C'|]. split; [exact L|]. split.
        { rewrite B, <- T. cbn. rewrite app_nil_r, <- !app_assoc. reflexivity. }
        destruct k; auto. intros SO. apply (enabled_someone past c C) in SO. cbn in E. rewrite SO in E. injection E as <- <-. now left.
      * pose proof (inv_others old progs s l i [] (Thr c' b todo' prog ra) I j N) as O'. cbn [map] in O'. rewrite app_nil_r in O'. exact O'.
  - destruct (write1_cases debug b (s_file s) x L) as (b' & e & W & EB & L' & _). rewrite W. cbn [bind fst snd out buf].
    eexists; exists (l ++ map (pair i) e); split; [reflexivity|]. split.
    + cbn [s_file]. rewrite F, map_app, map_snd_pair, app_assoc. reflexivity.
    + intros j. cbn [s_thr]. destruct (Nat.eq_dec j i) as [->|N]; [|exact (inv_others old progs s l i _ _ I j N)].
      rewrite upd_same. cbn [t_cfg t_buf t_todo t_prog]. exists past. split; [exact P|]. split; [exact C|]. split; [exact L'|]. split.
      * rewrite <- T, of_thread_app, of_thread_own, <- !app_assoc. f_equal. rewrite !app_assoc, EB, <- !app_assoc. reflexivity.
      * destruct past as [|[] past]; auto. intros SO. destruct (FL SO) as [H|[H _]]; discriminate.
  - assert (PF : forall b' ra', (b' = [] \/ b = b') -> flushed past (Thr c b' todo prog ra') \/ b' <> []) by (intros; destruct b'; [left|right; discriminate]; destruct past as [|[] past]; auto; intros SO; destruct (FL SO) as [G|[G _]]; [injection G as ->; right; split; reflexivity|discriminate]).
    destruct (flush_cases debug b (s_file s)) as [[-> [W|W]]|[NE W]]; rewrite W; cbn [fst snd out buf].
    + eexists; exists l; split; [reflexivity|]. split; [exact F|]. intros j. cbn [s_thr].
      destruct (Nat.eq_dec j i) as [->|N].
      * rewrite upd_same. exists past. cbn [t_cfg t_buf t_todo t_prog] in *. repeat split; auto; try apply C.
        destruct (PF [] true (or_introl eq_refl)) as [G|G]; [exact G|congruence].
      * pose proof (inv_others old progs s l i [] (Thr c [] todo prog true) I j N) as O'. cbn [map] in O'. rewrite app_nil_r in O'. exact O'.
    + eexists; exists l; split; [reflexivity|]. split; [exact F|]. intros j. cbn [s_thr].
      destruct (Nat.eq_dec j i) as [->|N].
      * rewrite upd_same. exists past. cbn [t_cfg t_buf t_todo t_prog] in *. repeat split; auto; try apply C.
        destruct (PF [] ra (or_introl eq_refl)) as [G|G]; [exact G|congruence].
      * pose proof (inv_others old progs s l i [] (Thr c [] todo prog ra) I j N) as O'. cbn [map] in O'. rewrite app_nil_r in O'. exact O'.
    + eexists; exists (l ++ map (pair i) b); split; [reflexivity|]. split.
      * cbn [s_file]. rewrite F, map_app, map_snd_pair, app_assoc. reflexivity.
      * intros j. cbn [s_thr]. destruct (Nat.eq_dec j i) as [->|N]; [|exact (inv_others old progs s l i _ _ I j N)].
        rewrite upd_same. exists past. cbn [t_cfg t_buf t_todo t_prog] in *. split; [exact P|]. split; [exact C|]. split; [cbn; lia|]. split.
        { rewrite <- T, of_thread_app, of_thread_own, <- !app_assoc. reflexivity. }
        destruct (PF [] ra (or_introl eq_refl)) as [G|G]; [exact G|congruence].
Qed.
Lemma inv_run debug old progs : (forall i, macros_only (progs i)) -> forall sched s l, inv old progs s l ->
  exists s' l', run debug s sched = Ok s' /\ inv old progs s' l'.
Proof.
  intros MO. induction sched as [|i sched IH]; intros s l I.
  - exists s, l. split; [reflexivity|exact I].
  - cbn [run]. destruct (inv_step debug old progs s l i MO I) as (s1 & l1 & E & I1). rewrite E. cbn [bind]. eauto.
Qed.

(** * Whole messages *)

(** The messages of a history, oldest first (calls that say nothing left out). *)
Fixpoint messages (past : list call) : list (list Z) :=
  match past with
  | [] => []
  | k :: p => messages p ++ match said p k with [] => [] | m => [m] end
  end.
(** Every LOG is followed at once by FLUSH and its message is shorter than the buffer. *)
Inductive tidy : list call -> list call -> Prop :=
| tidy_nil past : tidy past []
| tidy_log past m now text tl : Zlen (said past (LOG m now text)) < 4096 -> tidy (FLUSH :: LOG m now text :: past) tl ->
    tidy past (LOG m now text :: FLUSH :: tl)
| tidy_other past k tl : match k with LOG _ _ _ | Direct _ _ _ => False | _ => True end -> tidy (k :: past) tl -> tidy past (k :: tl).

Definition whole_of (i : nat) (l : list (nat * list Z)) : list (list Z) := map snd (filter (fun p => Nat.eqb (fst p) i) l).
Lemma whole_app i a b : whole_of i (a ++ b) = whole_of i a ++ whole_of i b.
Proof. unfold whole_of. now rewrite filter_app, map_app. Qed.

Definition phase (past : list call) (t : thr) (w : list (list Z)) : Prop :=
  ((t_todo t = [] \/ t_todo t = [DoFlush]) /\ t_buf t = [] /\ tidy past (t_prog t) /\ w = messages past)
  \/ (exists k p tl r, past = k :: p /\ t_prog t = FLUSH :: tl /\ t_todo t = map Byte r /\ t_buf t ++ r = said p k /\ said p k <> [] /\
        Zlen (said p k) < 4096 /\ someone past /\ tidy (FLUSH :: past) tl /\ w = messages p)
  \/ (exists k p, past = FLUSH :: k :: p /\ t_todo t = [DoFlush] /\ t_buf t = said p k /\ said p k <> [] /\ tidy past (t_prog t) /\ w = messages p).

Definition neat (old : list Z) (progs : nat -> list call) (s : sys) (l : list (nat * list Z)) : Prop :=
  s_file s = old ++ concat (map snd l) /\
  forall i, exists past, progs i = rev past ++ t_prog (s_thr s i) /\ follows past (t_cfg (s_thr s i)) /\ phase past (s_thr s i) (whole_of i l).

Lemma expand_log past c m now text : follows past c ->
  exists c', expand c (LOG m now text) = Ok (c', map Byte (said past (LOG m now text))) /\ follows (LOG m now text :: past) c'.
Proof.
  intros C. destruct (expand_follows past c (LOG m now text) C I) as (c' & todo & E & C' & B). exists c'. split; [|exact C'].
  rewrite E. do 2 f_equal. rewrite <- B. cbn [expand] in E. destruct (is_mode_enabled c m).
  - destruct (log_prefix c m now) as [r|e|]; try discriminate. cbn [bind] in E. injection E as <- <-. now rewrite bytes_of_map.
  - injection E as <- <-. reflexivity.
Qed.
Lemma expand_other past c k : follows past c -> match k with LOG _ _ _ | Direct _ _ _ => False | _ => True end ->
  said past k = [] /\ exists c' todo, expand c k = Ok (c', todo) /\ follows (k :: past) c' /\ (todo = [] \/ todo = [DoFlush]).
Proof.
  intros C D. assert (D' : match k with Direct _ _ _ => False | _ => True end) by (destruct k; auto).
  destruct (expand_follows past c k C D') as (c' & todo & E & C' & B).
  assert (S0 : said past k = []) by (destruct k; auto; contradiction). split; [exact S0|]. exists c', todo. split; [exact E|]. split; [exact C'|].
  destruct k; cbn [expand] in E; try contradiction; try (injection E as <- <-; now left).
  destruct (is_enabled c); injection E as <- <-; auto.
Qed.
Lemma said_someone past m now text : said past (LOG m now text) <> [] -> someone (LOG m now text :: past).
Proof. intros H. exists m. cbn [said] in H. cbn. destruct (switched_on past m); [discriminate|contradiction]. Qed.

Lemma neat_others old progs s l i (e : list (nat * list Z)) t : (forall p, In p e -> fst p = i) -> neat old progs s l -> forall j, j <> i ->
  exists past, progs j = rev past ++ t_prog (upd (s_thr s) i t j) /\ follows past (t_cfg (upd (s_thr s) i t j)) /\
    phase past (upd (s_thr s) i t j) (whole_of j (l ++ e)).
Proof.
  intros He [_ N] j D. rewrite !upd_other by exact D. rewrite whole_app.
  assert (W : whole_of j e = []).
  { unfold whole_of. induction e as [|p e IH]; [reflexivity|]. cbn. rewrite (He p (or_introl eq_refl)).
    replace (Nat.eqb i j) with false by (symmetry; apply Nat.eqb_neq; congruence). apply IH. intros q Q. apply He. now right. }
  rewrite W, app_nil_r. apply N.
Qed.
Lemma neat_step debug old progs s l i : neat old progs s l -> exists s' l', step debug s i = Ok s' /\ neat old progs s' l'.
Proof.
  intros I. pose proof (proj1 I) as F. destruct (proj2 I i) as (past & P & C & H).
  unfold step. destruct (s_thr s i) as [c b todo prog ra] eqn:ET. unfold phase in H. cbn [t_cfg t_buf t_todo t_prog t_raised] in *.
  assert (KEEP : forall c' b' todo' prog' ra', (exists past', progs i = rev past' ++ prog' /\ follows past' c' /\ phase past' (Thr c' b' todo' prog' ra') (whole_of i l)) ->
    neat old progs (Sys (s_file s) (upd (s_thr s) i (Thr c' b' todo' prog' ra'))) l).
  { intros c' b' todo' prog' ra' Q. split; [exact F|]. intros j. cbn [s_thr]. destruct (Nat.eq_dec j i) as [->|N].
    - rewrite upd_same. exact Q.
    - pose proof (neat_others old progs s l i [] (Thr c' b' todo' prog' ra') (fun p Q => False_ind _ Q) I j N) as O'. rewrite app_nil_r in O'. exact O'. }
  destruct H as [(T & B & TD & W)|[(k & p & tl & r & EP & EQ & T & B & NE & LT & SO & TD & W)|(k & p & EP & T & B & NE & TD & W)]].
  - subst b. destruct T as [->| ->].
    + destruct prog as [|k prog]; [exists s, l; split; [reflexivity|exact I]|].
      inversion TD as [|? m now text tl LT TD' E1 E2|? ? ? D TD' E1 E2]; subst.
      * destruct (expand_log past c m now text C) as (c' & E & C'). rewrite E. cbn [bind fst snd].
        eexists; exists l; split; [reflexivity|]. apply KEEP. exists (LOG m now text :: past). cbn [rev]. rewrite <- app_assoc. cbn [app].
        split; [exact P|]. split; [exact C'|]. destruct (said past (LOG m now text)) as [|x r] eqn:SD.
        { left. cbn [t_todo t_buf t_prog map]. split; [now left|]. split; [reflexivity|]. split; [apply tidy_other; [exact Logic.I|exact TD']|].
          rewrite W. cbn [messages]. rewrite SD. now rewrite app_nil_r. }
        right; left. exists (LOG m now text), past, tl, (x :: r). cbn [t_todo t_buf t_prog]. rewrite SD.
        repeat split; auto; try discriminate. apply said_someone. rewrite SD. discriminate.
      * destruct (expand_other past c k C D) as (S0 & c' & todo & E & C' & T'). rewrite E. cbn [bind fst snd].
        eexists; exists l; split; [reflexivity|]. apply KEEP. exists (k :: past). cbn [rev]. rewrite <- app_assoc. cbn [app].
        split; [exact P|]. split; [exact C'|]. left. cbn [t_todo t_buf t_prog]. repeat split; auto. cbn [messages]. rewrite S0. now rewrite app_nil_r.
    + destruct (flush_cases debug [] (s_file s)) as [[_ [Wr|Wr]]|[NE _]]; [| |congruence]; rewrite Wr; cbn [bind fst snd out buf];
        (eexists; exists l; split; [reflexivity|]; apply KEEP; exists past; split; [exact P|]; split; [exact C|]; left; cbn [t_todo t_buf t_prog]; repeat split; auto).
  - subst past. destruct r as [|x r].
    + cbn [map] in T. subst todo prog. cbn [expand]. apply (enabled_someone _ c C) in SO. rewrite SO. cbn [bind fst snd].
      eexists; exists l; split; [reflexivity|]. apply KEEP. exists (FLUSH :: k :: p). split; [rewrite P; cbn [rev]; rewrite <- !app_assoc; reflexivity|].
      split; [exact C|]. right; right. exists k, p. cbn [t_todo t_buf t_prog]. rewrite app_nil_r in B. repeat split; auto.
    + cbn [map] in T. subst todo.
      assert (LB : Zlen b < 4095). { rewrite <- B, Zlen_app, Zlen_cons in LT. pose proof (Zlen_nonneg r). lia. }
      destruct (write1_cases debug b (s_file s) x ltac:(lia)) as (b' & e & Wr & EB & L' & [->|[_ Z1]]); [|lia].
      rewrite Wr. cbn [bind fst snd out buf]. cbn [app] in EB. subst b'. rewrite app_nil_r. eexists; exists l; split; [reflexivity|]. apply KEEP.
      exists (k :: p). split; [exact P|]. split; [exact C|]. right; left. exists k, p, tl, r. cbn [t_todo t_buf t_prog].
      rewrite <- app_assoc. repeat split; auto.
  - subst past todo b. destruct (flush_cases debug (said p k) (s_file s)) as [[E0 _]|[_ Wr]]; [contradiction|]. rewrite Wr. cbn [bind fst snd out buf].
    eexists; exists (l ++ [(i, said p k)]); split; [reflexivity|]. split.
    { cbn [s_file]. rewrite F, map_app, concat_app, app_assoc. cbn. now rewrite app_nil_r. }
    intros j. cbn [s_thr]. destruct (Nat.eq_dec j i) as [->|N].
    + rewrite upd_same. cbn [t_cfg t_prog]. exists (FLUSH :: k :: p). split; [exact P|]. split; [exact C|]. left. cbn [t_todo t_buf t_prog].
      repeat split; auto. rewrite whole_app, W. unfold whole_of. cbn. rewrite Nat.eqb_refl. cbn. rewrite app_nil_r. destruct (said p k); [contradiction|reflexivity].
    + apply (neat_others old progs s l i [(i, said p k)]); auto. intros q [<-|[]]. reflexivity.
Qed.
Lemma neat_start old progs : (forall i, tidy [] (progs i)) -> neat old progs (start cfg_new old progs) [].
Proof.
  intros T. split; [cbn; now rewrite app_nil_r|]. intros i. exists []. cbn. split; [reflexivity|]. split; [repeat split|].
  left. cbn. repeat split; auto.
Qed.
Lemma neat_run debug old progs : forall sched s l, neat old progs s l -> exists s' l', run debug s sched = Ok s' /\ neat old progs s' l'.
Proof.
  induction sched as [|i sched IH]; intros s l I.
  - exists s, l. split; [reflexivity|exact I].
  - cbn [run]. destruct (neat_step debug old progs s l i I) as (s1 & l1 & E & I1). rewrite E. cbn [bind]. eauto.
Qed.

Lemma step_untouched debug s i j s' : step debug s i = Ok s' -> j <> i -> s_thr s' j = s_thr s j.
Proof.
  intros E N. unfold step in E. destruct (t_todo (s_thr s i)) as [|[c|] todo].
  - destruct (t_prog (s_thr s i)) as [|k p]; [injection E as <-; reflexivity|]. destruct (expand _ k); try discriminate. cbn [bind] in E. injection E as <-. cbn. now apply upd_other.
  - destruct (sf_write1 _ _ _ _); try discriminate. cbn [bind] in E. injection E as <-. cbn. now apply upd_other.
  - destruct (sf_flush _ _ _); try discriminate; injection E as <-; cbn; now apply upd_other.
Qed.
Lemma run_untouched debug j : forall sched s s', run debug s sched = Ok s' -> ~ In j sched -> s_thr s' j = s_thr s j.
Proof.
  induction sched as [|i sched IH]; intros s s' E N; cbn [run] in E; [injection E as <-; reflexivity|].
  destruct (step debug s i) as [s1|e|] eqn:E1; try discriminate. cbn [bind] in E. rewrite (IH _ _ E) by (intros H; apply N; now right).
  apply (step_untouched debug s i j s1 E1). intros ->. apply N. now left.
Qed.
