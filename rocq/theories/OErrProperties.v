(** Properties of what output files report (C244-C246). *)
From Verif Require Import Base ErrnoModel OErrModel.

(** * C244: error() tells how the last call went *)

(** A call that failed without an exception: false or -1. *)
Definition told_failure (c : ocall) (v : Z) : Prop := match c with COpen _ _ | CClose _ | CFlush _ => v = 0 | _ => v = -1 end.
Definition told_success (c : ocall) (v : Z) : Prop :=
  match c with COpen _ _ | CClose _ | CFlush _ => v = 1 | CWrite s _ | CWriteArray s _ => v = Zlen s | CWrite1 _ _ => v = 1 end.

Lemma fail_case t x e v f o f1 : fail t x e v f = (o, f1) ->
  (t = true /\ o = Thrown x /\ f1 = f) \/ (t = false /\ o = Ret v /\ f1 = with_err f (Some e)).
Proof. unfold fail. destruct t; intros H; injection H as <- <-; auto. Qed.

(** If a call returns, it returns failure exactly if error() then names an error, and success otherwise. *)
Theorem C244_returned : forall b c f v f1, of_call b c f = (Ret v, f1) ->
  (told_failure c v /\ exists e, of_error f1 = Some e) \/ (told_success c v /\ of_error f1 = None).
Proof.
  intros b c f v f1 H.
  assert (W : forall s k, of_write b s k f = (Ret v, f1) -> (v = -1 /\ exists e, of_error f1 = Some e) \/ (v = Zlen s /\ of_error f1 = None)).
  { intros s k HW. unfold of_write in HW. destruct (of_stream f) as [|n|]; [| |discriminate].
    - apply fail_case in HW. destruct HW as [(_ & HO & _)|(_ & HO & ->)]; [discriminate|]. injection HO as ->. left. split; [reflexivity|]. eexists; reflexivity.
    - unfold fwrite in HW. destruct s as [|a s].
      + cbn in HW. apply fail_case in HW. destruct HW as [(_ & HO & _)|(_ & HO & ->)]; [discriminate|]. injection HO as ->. left. split; [reflexivity|]. eexists; reflexivity.
      + destruct k as [k|]; cbn [Z.leb Z.compare] in HW.
        * apply fail_case in HW. destruct HW as [(_ & HO & _)|(_ & HO & ->)]; [discriminate|]. injection HO as ->. left. split; [reflexivity|]. eexists; reflexivity.
        * assert (HV : v = Zlen (a :: s) * 1) by congruence. injection HW as _ <-. right. split; [lia|reflexivity]. }
  destruct c as [n a|a|s k|c ok|s k|ok]; cbn [of_call told_failure told_success] in *.
  - unfold of_open in H. destruct a as [e|e|].
    + apply fail_case in H. destruct H as [(_ & HO & _)|(_ & HO & ->)]; [discriminate|]. injection HO as ->. left. split; [reflexivity|]. eexists; reflexivity.
    + apply fail_case in H. destruct H as [(_ & HO & _)|(_ & HO & ->)]; [discriminate|]. injection HO as ->. left. split; [reflexivity|]. eexists; reflexivity.
    + injection H as <- <-. right. split; reflexivity.
  - unfold of_close in H. destruct (of_stream f) as [|n|]; [injection H as <- <-; right; split; reflexivity| |discriminate].
    destruct a as [e|]; [|injection H as <- <-; right; split; reflexivity].
    apply fail_case in H. destruct H as [(_ & HO & _)|(_ & HO & ->)]; [discriminate|]. injection HO as ->. left. split; [reflexivity|]. eexists; reflexivity.
  - exact (W s k H).
  - exact (W [c] _ H).
  - unfold of_write_array in H. destruct (of_stream f) eqn:E; [exact (W s k H)| |exact (W s k H)]. destruct s; [discriminate|exact (W _ k H)].
  - unfold of_flush in H. destruct (of_stream f) as [|n|]; [| |discriminate]; (destruct ok; [injection H as <- <-; right; split; reflexivity|];
    apply fail_case in H; destruct H as [(_ & HO & _)|(_ & HO & ->)]; [discriminate|]; injection HO as ->; left; split; [reflexivity|]; eexists; reflexivity).
Qed.
Print Assumptions C244_returned.
(** Whatever the system refuses is told: such a call does not return success. *)
Definition refused (c : ocall) (f : ofile) : Prop :=
  match c with
  | COpen _ (OpenFails _) | COpen _ (StreamFails _) | CWrite _ (Some _) | CWriteArray _ (Some _) | CWrite1 _ false | CFlush false => True
  | CClose (Some _) => of_is_open f = true
  | _ => False
  end.
Theorem C244_refused : forall b c f v f1, refused c f -> of_call b c f = (Ret v, f1) -> told_failure c v.
Proof.
  intros b c f v f1 HR H.
  assert (F : forall t x e w g, fail t x e w g = (Ret v, f1) -> v = w).
  { intros t x e w g HF. apply fail_case in HF. destruct HF as [(_ & HO & _)|(_ & HO & _)]; [discriminate|congruence]. }
  assert (W : forall s k, of_write b s (Some k) f = (Ret v, f1) -> v = -1).
  { intros s k HW. unfold of_write in HW. destruct (of_stream f); [exact (F _ _ _ _ _ HW)| |discriminate].
    destruct s; cbn [fwrite Z.leb Z.compare] in HW; exact (F _ _ _ _ _ HW). }
  destruct c as [n a|a|s k|c ok|s k|ok]; cbn [of_call told_failure refused] in *.
  - unfold of_open in H. destruct a; [exact (F _ _ _ _ _ H)|exact (F _ _ _ _ _ H)|destruct HR].
  - unfold of_close, of_is_open in *. destruct a; [|destruct HR]. destruct (of_stream f); [discriminate|exact (F _ _ _ _ _ H)|discriminate].
  - destruct k; [exact (W _ _ H)|destruct HR].
  - destruct ok; [destruct HR|exact (W _ _ H)].
  - destruct k; [|destruct HR]. unfold of_write_array in H. destruct (of_stream f); [exact (W _ _ H)| |exact (W _ _ H)]. destruct s; [discriminate|exact (W _ _ H)].
  - destruct ok; [destruct HR|]. unfold of_flush in H. destruct (of_stream f); [exact (F _ _ _ _ _ H)|exact (F _ _ _ _ _ H)|discriminate].
Qed.
Print Assumptions C244_refused.
(** The builds without exceptions never throw; with NDEBUG only opening and closing do. *)
Theorem C244_throwing : forall b c f x f1, of_call b c f = (Thrown x, f1) ->
  b <> NoExceptions /\ (b = Release -> (exists n a, c = COpen n a) \/ (exists a, c = CClose a)).
Proof.
  intros b c f x f1 H.
  assert (D : forall e1 e2 w g, fail (debug_throws b) e1 e2 w g = (Thrown x, f1) -> b = Debug).
  { intros e1 e2 w g HF. apply fail_case in HF. destruct HF as [(HT & _)|(_ & HO & _)]; [destruct b; [discriminate|discriminate|reflexivity]|discriminate]. }
  assert (T : forall e1 e2 w g, fail (throws b) e1 e2 w g = (Thrown x, f1) -> b <> NoExceptions).
  { intros e1 e2 w g HF. apply fail_case in HF. destruct HF as [(HT & _)|(_ & HO & _)]; [destruct b; [discriminate| |]; congruence|discriminate]. }
  assert (W : forall s k, of_write b s k f = (Thrown x, f1) -> b = Debug).
  { intros s k HW. unfold of_write in HW. destruct (of_stream f) as [|n|]; [exact (D _ _ _ _ HW)| |discriminate].
    destruct (fwrite k s) as [i m]. destruct (i <=? 0); [exact (D _ _ _ _ HW)|discriminate]. }
  assert (R : b = Debug -> b <> NoExceptions /\ (b = Release -> (exists n a, c = COpen n a) \/ (exists a, c = CClose a))).
  { intros ->. split; discriminate. }
  destruct c as [n a|a|s k|c ok|s k|ok]; cbn [of_call] in H.
  - split; [|intros _; left; eexists _, _; reflexivity]. unfold of_open in H. destruct a; [exact (T _ _ _ _ H)|exact (T _ _ _ _ H)|discriminate].
  - split; [|intros _; right; eexists; reflexivity]. unfold of_close in H. destruct (of_stream f); try discriminate. destruct a; [exact (T _ _ _ _ H)|discriminate].
  - exact (R (W s k H)).
  - exact (R (W _ _ H)).
  - unfold of_write_array in H. apply R. destruct (of_stream f) eqn:E; [exact (W s k H)| |exact (W s k H)]. destruct s; [discriminate|exact (W _ k H)].
  - unfold of_flush in H. apply R. destruct (of_stream f); [| |discriminate]; (destruct ok; [discriminate|exact (D _ _ _ _ H)]).
Qed.
Print Assumptions C244_throwing.
(** After an exception error() is what it was before the call: the line that would set it is not reached. *)
Lemma thrown_keeps b c f x f1 : of_call b c f = (Thrown x, f1) -> of_error f1 = of_error f.
Proof.
  assert (D : forall t e1 e2 w g, fail t e1 e2 w g = (Thrown x, f1) -> f1 = g).
  { intros t e1 e2 w g HF. apply fail_case in HF. destruct HF as [(_ & _ & ->)|(_ & HO & _)]; [reflexivity|discriminate]. }
  assert (W : forall s k, of_write b s k f = (Thrown x, f1) -> of_error f1 = of_error f).
  { intros s k HW. unfold of_write in HW. destruct (of_stream f) as [|n|] eqn:E; [rewrite (D _ _ _ _ _ HW); reflexivity| |discriminate].
    destruct (fwrite k s) as [i m]. destruct (i <=? 0); [rewrite (D _ _ _ _ _ HW); reflexivity|discriminate]. }
  intros H. destruct c as [n a|a|s k|c ok|s k|ok]; cbn [of_call] in H.
  - unfold of_open in H. destruct a; [rewrite (D _ _ _ _ _ H); reflexivity|rewrite (D _ _ _ _ _ H); reflexivity|discriminate].
  - unfold of_close in H. destruct (of_stream f); try discriminate. destruct a; [rewrite (D _ _ _ _ _ H); reflexivity|discriminate].
  - exact (W _ _ H).
  - exact (W _ _ H).
  - unfold of_write_array in H. destruct (of_stream f) eqn:E; [exact (W s k H)| |exact (W s k H)]. destruct s; [discriminate|exact (W _ k H)].
  - unfold of_flush in H. destruct (of_stream f); [| |discriminate]; (destruct ok; [discriminate|rewrite (D _ _ _ _ _ H); reflexivity]).
Qed.
Theorem C244_stale_refuted :
  (forall b c f x f1, of_call b c f = (Thrown x, f1) -> of_error f1 = of_error f) /\
  (exists f1, of_call Release (COpen 1 (OpenFails 2)) of_new = (Thrown NotFoundError, f1) /\ of_error f1 = None).
Proof. split; [exact thrown_keeps|]. eexists. split; reflexivity. Qed.
Print Assumptions C244_stale_refuted.
Example C244_case : exists f1, of_call NoExceptions (COpen 1 (OpenFails 13)) of_new = (Ret 0, f1) /\ of_error f1 = Some PermissionsError.
Proof. eexists. split; reflexivity. Qed.

(** * C245: what was reported as written is in the file that filename() names *)

(** The bytes that writes reported as written, with the name of the file. *)
Definition reported (c : ocall) (o : outcome) (f : ofile) : list (nat * Z) :=
  match c, o with
  | CWrite s _, Ret v | CWriteArray s _, Ret v => if v =? -1 then [] else map (pair (of_filename f)) s
  | CWrite1 c _, Ret v => if v =? -1 then [] else [(of_filename f, c)]
  | _, _ => []
  end.
Fixpoint reports (b : build) (l : list ocall) (f : ofile) : list (nat * Z) :=
  match l with [] => [] | c :: tl => reported c (fst (of_call b c f)) f ++ reports b tl (snd (of_call b c f)) end.
Fixpoint after (b : build) (l : list ocall) (f : ofile) : ofile := match l with [] => f | c :: tl => after b tl (snd (of_call b c f)) end.
(** The system neither writes part of a block nor refuses to open a file while another is open. *)
Fixpoint kind (b : build) (l : list ocall) (f : ofile) : Prop :=
  match l with
  | [] => True
  | c :: tl =>
    match c with
    | CWrite _ (Some k) | CWriteArray _ (Some k) => k = 0%nat
    | COpen n (OpenFails _) => of_is_open f = false
    | _ => True
    end /\ kind b tl (snd (of_call b c f))
  end.
Definition named (f : ofile) : Prop := match of_stream f with On n => n = of_filename f | _ => True end.
Lemma fail_snd t x e v f : of_stream (snd (fail t x e v f)) = of_stream f /\ of_name (snd (fail t x e v f)) = of_name f /\ of_moved (snd (fail t x e v f)) = of_moved f.
Proof. destruct t; repeat split. Qed.
Lemma reported_none c t x e f g : reported c (fst (fail t x e (-1) f)) g = [].
Proof. destruct t, c; reflexivity. Qed.
Lemma write_step b s k f : named f -> (forall j, k = Some j -> j = 0%nat) ->
  named (snd (of_write b s k f)) /\
  of_moved (snd (of_write b s k f)) = of_moved f ++ match fst (of_write b s k f) with Ret v => if v =? -1 then [] else map (pair (of_filename f)) s | _ => [] end.
Proof.
  intros HN HK. unfold of_write. destruct (of_stream f) as [|n|] eqn:E.
  - split; [unfold named; destruct (fail_snd (debug_throws b) OpenError OpenError (-1) f) as (-> & _ & _); rewrite E; exact I|].
    destruct (debug_throws b); cbn; rewrite app_nil_r; reflexivity.
  - unfold named in HN. rewrite E in HN. unfold of_filename in HN. subst n. unfold fwrite. destruct s as [|a s].
    + cbn. destruct (debug_throws b); cbn; (split; [reflexivity|rewrite !app_nil_r; reflexivity]).
    + destruct k as [k|].
      * rewrite (HK k eq_refl). cbn. destruct (debug_throws b); cbn; (split; [reflexivity|rewrite !app_nil_r; reflexivity]).
      * cbn [Z.leb Z.compare fst snd]. split; [reflexivity|]. destruct (Z.eqb_spec (Zlen (a :: s) * 1) (-1)) as [HZ|_]; [unfold Zlen in HZ; lia|reflexivity].
  - split; [unfold named; cbn; rewrite E; exact I|]. cbn. rewrite app_nil_r. reflexivity.
Qed.
Theorem C245_moved_partial : forall b l, kind b l of_new -> of_moved (after b l of_new) = reports b l of_new.
Proof.
  intros b l. assert (G : forall l f, named f -> kind b l f -> of_moved (after b l f) = of_moved f ++ reports b l f).
  { clear l. induction l as [|c l IH]; intros f HN HK; [cbn; rewrite app_nil_r; reflexivity|]. destruct HK as [HC HK]. cbn [after reports].
    assert (S : named (snd (of_call b c f)) /\ of_moved (snd (of_call b c f)) = of_moved f ++ reported c (fst (of_call b c f)) f).
    { destruct c as [n a|a|s k|c ok|s k|ok]; cbn [of_call reported].
      - rewrite app_nil_r. unfold of_open, named. destruct a as [e|e|]; [| |split; reflexivity].
        + destruct (fail_snd (throws b) (open_exception e) (open_error e) 0 (with_name f n)) as (-> & HM & ->).
          unfold of_is_open in HC. cbn. destruct (of_stream f); [split; [exact I|reflexivity]|discriminate|discriminate].
        + destruct (fail_snd (throws b) (open_exception e) (open_error e) 0 (with_stream (with_name f n) Null)) as (-> & HM & ->). split; [exact I|reflexivity].
      - rewrite app_nil_r. unfold of_close, named in *. destruct (of_stream f) as [|n|] eqn:E.
        + cbn. rewrite E. split; [exact I|reflexivity].
        + destruct a as [e|]; [|split; [exact I|reflexivity]].
          destruct (fail_snd (throws b) (close_exception e) (close_error e) 0 (with_stream f Gone)) as (-> & HM & ->). split; [exact I|reflexivity].
        + cbn. rewrite E. split; [exact I|reflexivity].
      - destruct (write_step b s k f HN) as [H1 H2]; [intros j ->; exact HC|]. split; [exact H1|]. rewrite H2. reflexivity.
      - unfold of_write1. destruct (write_step b [c] (if ok then None else Some 0%nat) f HN) as [H1 H2]; [intros j HJ; destruct ok; [discriminate|injection HJ as <-; reflexivity]|].
        split; [exact H1|]. rewrite H2. reflexivity.
      - assert (HS := write_step b s k f HN). unfold of_write_array. destruct (of_stream f) eqn:E.
        + destruct HS as [H1 H2]; [intros j ->; exact HC|]. split; [exact H1|]. rewrite H2. reflexivity.
        + destruct s as [|x s]; [split; [exact HN|rewrite app_nil_r; reflexivity]|].
          destruct HS as [H1 H2]; [intros j ->; exact HC|]. split; [exact H1|]. rewrite H2. reflexivity.
        + destruct HS as [H1 H2]; [intros j ->; exact HC|]. split; [exact H1|]. rewrite H2. reflexivity.
      - rewrite app_nil_r. unfold of_flush, named in *. destruct (of_stream f) as [|n|] eqn:E; [| |cbn; rewrite E; split; [exact I|reflexivity]];
          (destruct ok; [cbn; rewrite E; split; [exact HN|reflexivity]|]; destruct (fail_snd (debug_throws b) UnknownError UnknownError 0 f) as (-> & HM & ->);
           rewrite E; split; [unfold of_filename; rewrite ?HM; exact HN|reflexivity]). }
    destruct S as [S1 S2]. rewrite (IH _ S1 HK), S2, app_assoc. reflexivity. }
  intros HK. rewrite (G l of_new I HK). reflexivity.
Qed.
Print Assumptions C245_moved_partial.
(** After another file could not be opened, filename() names that file, open() says true, and writes go to the first file. *)
Theorem C245_other_file_refuted : forall b s, s <> [] -> exists f f1,
  f = after b [COpen 1 Opens; COpen 2 (OpenFails 2)] of_new /\ of_is_open f = true /\ of_filename f = 2%nat /\
  of_call b (CWrite s None) f = (Ret (Zlen s), f1) /\ of_moved f1 = map (pair 1%nat) s.
Proof.
  intros b s Hs. destruct s as [|a s]; [congruence|].
  assert (G : forall b, exists f1, of_call b (CWrite (a :: s) None) (after b [COpen 1 Opens; COpen 2 (OpenFails 2)] of_new) = (Ret (Zlen (a :: s) * 1), f1) /\
              of_moved f1 = map (pair 1%nat) (a :: s)) by (intros []; eexists; split; reflexivity).
  destruct (G b) as (f1 & H1 & H2). rewrite Z.mul_1_r in H1. exists (after b [COpen 1 Opens; COpen 2 (OpenFails 2)] of_new), f1.
  split; [reflexivity|]. split; [destruct b; reflexivity|]. split; [destruct b; reflexivity|]. split; [exact H1|exact H2].
Qed.
Print Assumptions C245_other_file_refuted.
(** A block of which only a part was written is reported as not written. *)
Theorem C245_short_refuted : exists f f1, f = after Release [COpen 1 Opens] of_new /\
  of_call Release (CWrite [65; 66; 67] (Some 2%nat)) f = (Ret (-1), f1) /\ of_moved f1 = [(1%nat, 65); (1%nat, 66)].
Proof. eexists _, _. split; [reflexivity|]. split; reflexivity. Qed.
Print Assumptions C245_short_refuted.
(** Writing nothing is an error, and for containers undefined behaviour. *)
Theorem C245_nothing_refuted : forall b f k, of_stream f <> Null -> of_stream f <> Gone ->
  fst (of_call b (CWrite [] k) f) = (if debug_throws b then Thrown WriteError else Ret (-1)) /\ fst (of_call b (CWriteArray [] k) f) = Undefined.
Proof.
  intros b f k H1 H2. cbn [of_call]. unfold of_write, of_write_array. destruct (of_stream f) as [|n|]; [congruence| |congruence].
  split; [|reflexivity]. cbn. destruct b; reflexivity.
Qed.
Print Assumptions C245_nothing_refuted.
Example C245_case : kind Debug [COpen 3 Opens; CWrite [1; 2] None; CClose None; COpen 4 (OpenFails 2); COpen 4 Opens; CWrite1 7 true] of_new /\
  reports Debug [COpen 3 Opens; CWrite [1; 2] None; CClose None; COpen 4 (OpenFails 2); COpen 4 Opens; CWrite1 7 true] of_new = [(3%nat, 1); (3%nat, 2); (4%nat, 7)].
Proof. split; [repeat split|reflexivity]. Qed.

(** * C246: files can be closed and destroyed whatever the system does *)

Definition closes (c : ocall) : Prop := c <> CWriteArray [] None /\ (forall k, c <> CWriteArray [] (Some k)) /\ forall e, c <> CClose (Some e).
(** No history is undefined in which fclose does not fail and no empty container is written. *)
Lemma never_gone b c f : closes c -> of_stream f <> Gone -> fst (of_call b c f) <> Undefined /\ of_stream (snd (of_call b c f)) <> Gone.
Proof.
  intros (HC1 & HC2 & HC3) HG.
  assert (FU : forall t x e v g, fst (fail t x e v g) <> Undefined) by (intros t x e v g; destruct t; discriminate).
  assert (W : forall s k, fst (of_write b s k f) <> Undefined /\ of_stream (snd (of_write b s k f)) <> Gone).
  { intros s k. unfold of_write. destruct (of_stream f) as [|n|] eqn:E; [| |congruence].
    - split; [apply FU|]. rewrite (proj1 (fail_snd _ _ _ _ _)), E. discriminate.
    - destruct (fwrite k s) as [i m]. destruct (i <=? 0); [|split; discriminate]. split; [apply FU|]. rewrite (proj1 (fail_snd _ _ _ _ _)). discriminate. }
  destruct c as [n a|a|s k|c ok|s k|ok]; cbn [of_call].
  - unfold of_open. destruct a; [| |split; discriminate]; (split; [apply FU|]; rewrite (proj1 (fail_snd _ _ _ _ _)); cbn; congruence).
  - unfold of_close. destruct (of_stream f) eqn:E; [split; [discriminate|cbn; rewrite E; discriminate]| |congruence].
    destruct a as [e|]; [destruct (HC3 e eq_refl)|split; discriminate].
  - apply W.
  - apply W.
  - unfold of_write_array. destruct (of_stream f) eqn:E; [apply W| |apply W]. destruct s; [destruct k; [destruct (HC2 n eq_refl)|destruct HC1; reflexivity]|apply W].
  - unfold of_flush. destruct (of_stream f) eqn:E; [| |congruence]; (destruct ok; [split; [discriminate|cbn; rewrite E; discriminate]|];
      split; [apply FU|]; rewrite (proj1 (fail_snd _ _ _ _ _)), E; discriminate).
Qed.
Theorem C246_defined_partial : forall b l c, Forall closes (l ++ [c]) ->
  fst (of_call b c (after b l of_new)) <> Undefined /\ of_destroy (after b (l ++ [c]) of_new) = Ret 0.
Proof.
  intros b l c HF.
  assert (G : forall l f, of_stream f <> Gone -> Forall closes l -> of_stream (after b l f) <> Gone).
  { clear. induction l as [|c l IH]; intros f HG HF; [exact HG|]. inversion HF as [|? ? HC HF1]; subst. cbn. apply IH; [apply never_gone; assumption|exact HF1]. }
  assert (HF2 := HF). apply Forall_app in HF2. destruct HF2 as [HL HC]. inversion HC as [|? ? HC1 _]; subst.
  assert (HG : of_stream (after b l of_new) <> Gone) by (apply G; [discriminate|exact HL]).
  split; [apply never_gone; assumption|].
  assert (HA : of_stream (after b (l ++ [c]) of_new) <> Gone) by (apply G; [discriminate|exact HF]).
  unfold of_destroy. destruct (of_stream (after b (l ++ [c]) of_new)); [reflexivity|reflexivity|congruence].
Qed.
Print Assumptions C246_defined_partial.
(** After a close() that fails the stream is gone but still counted as open: destroying the object, or closing it again, closes it a second time. *)
Theorem C246_close_refuted : forall b e f n, of_stream f = On n ->
  let f1 := snd (of_call b (CClose (Some e)) f) in
  of_is_open f1 = true /\ of_destroy f1 = Undefined /\ forall a, fst (of_call b (CClose a) f1) = Undefined.
Proof. intros b e f n H. cbn. unfold of_close. rewrite H. destruct b; repeat split. Qed.
Print Assumptions C246_close_refuted.
(** flush() of a file that is not open reports success. *)
Theorem C246_flush_refuted : forall b, exists f1, of_call b (CFlush true) of_new = (Ret 1, f1) /\ of_is_open f1 = false /\ of_error f1 = None.
Proof. intros b. eexists. split; [reflexivity|]. split; reflexivity. Qed.
Print Assumptions C246_flush_refuted.
Example C246_case : Forall closes [COpen 1 Opens; CWrite [1] (Some 3%nat); CFlush false; CClose None].
Proof. repeat constructor; discriminate. Qed.
