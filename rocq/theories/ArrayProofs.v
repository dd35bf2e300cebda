(** Arrays: specifications and proofs. *)
From Verif Require Import Base RingModel RingProofs ArrayModel.

(** * Element access (C04) *)
Lemma arr_at_spec {C} (a : list C) i : 0 <= i ->
  (i < Zlen a -> exists c, nth_error a (Z.to_nat i) = Some c /\ arr_at a i = Ok c) /\
  (Zlen a <= i -> arr_at a i = Throw OutOfRangeError).
Proof.
  intros Hi. unfold arr_at. split; intros H.
  - destruct (Zlen a <=? i) eqn:E; [lia|]. destruct (zget_some a i) as [c Hc]; [lia|].
    exists c. rewrite Hc. split; [|reflexivity]. unfold zget in Hc. destruct (i <? 0) eqn:?; [lia|exact Hc].
  - destruct (Zlen a <=? i) eqn:E; [reflexivity|lia].
Qed.

Lemma arr_get_spec {C} (a : list C) i : 0 <= i ->
  (i < Zlen a -> forall debug, exists c, nth_error a (Z.to_nat i) = Some c /\ arr_get debug a i = Ok c) /\
  (Zlen a <= i -> arr_get true a i = Throw OutOfRangeError).
Proof.
  intros Hi. split; intros H.
  - intros debug. destruct (arr_get_ok debug a i) as (c & Hc & Hg); [lia|].
    exists c. split; [|exact Hg]. unfold zget in Hc. destruct (i <? 0) eqn:?; [lia|exact Hc].
  - unfold arr_get. rewrite zget_none by lia. reflexivity.
Qed.

Lemma arr_write_spec {C} (a : list C) i c : 0 <= i < Zlen a ->
  forall debug, exists a', arr_set debug a i c = Ok a' /\ arr_set_at a i c = Ok a' /\
    length a' = length a /\ nth_error a' (Z.to_nat i) = Some c /\
    forall j, j <> Z.to_nat i -> nth_error a' j = nth_error a j.
Proof.
  intros Hi debug. exists (zset a i c). rewrite arr_set_ok by lia.
  unfold arr_set_at. destruct (Zlen a <=? i) eqn:E; [lia|].
  destruct (zget_some a i Hi) as [x ->]. unfold zset, Zlen in *. destruct (i <? 0) eqn:?; [lia|].
  rewrite upd_length, nth_error_upd_eq by lia. repeat split; auto.
  intros j Hj. apply nth_error_upd_neq. congruence.
Qed.

Lemma arr_write_out {C} (a : list C) i c : Zlen a <= i ->
  arr_set_at a i c = Throw OutOfRangeError /\ arr_set true a i c = Throw OutOfRangeError.
Proof.
  intros Hi. unfold arr_set_at, arr_set. pose proof (Zlen_nonneg a).
  rewrite zget_none by lia. destruct (Zlen a <=? i) eqn:E; [auto|lia].
Qed.

(** * Value semantics of array variables (C05) *)
(** Specification: every variable simply holds a list; [None] variable = destroyed. *)
Definition vst A := list (option (list (option A))).
Definition v_of {A} (s : vst A) (i : nat) : option (list (option A)) :=
  match nth_error s i with Some (Some c) => Some c | _ => None end.
Definition v_step {A} (debug : bool) (s : vst A) (o : aop A) : option (vst A * pout A) :=
  let out (checked : bool) (c : list (option A)) k (ok : list (option A) -> vst A * pout A) :=
    if (0 <=? k) && (k <? Zlen c) then Some (ok c)
    else if (0 <=? k) && (checked || debug) then Some (s, OExc OutOfRangeError) else None in
  match o with
  | ANew => Some (s ++ [Some []], ONone)
  | ANewSized n => if 0 <=? n then Some (s ++ [Some (repeat None (Z.to_nat n))], ONone) else None
  | ACopyNew j => match v_of s j with Some c => Some (s ++ [Some c], ONone) | None => None end
  | AAssign i j => match v_of s i, v_of s j with
                   | Some _, Some c => Some (upd i (Some c) s, ONone) | _, _ => None end
  | AResize i n => match v_of s i with
                   | Some _ => if 0 <=? n then Some (upd i (Some (repeat None (Z.to_nat n))) s, ONone) else None
                   | None => None end
  | AClear i => match v_of s i with Some _ => Some (upd i (Some []) s, ONone) | None => None end
  | AConst i n v => match v_of s i with
                   | Some _ => if 0 <=? n then Some (upd i (Some (repeat (Some v) (Z.to_nat n))) s, ONone) else None
                   | None => None end
  | ADestroy i => match v_of s i with Some _ => Some (upd i None s, ONone) | None => None end
  | AWrite i k v => match v_of s i with
      | Some c => out false c k (fun c => (upd i (Some (zset c k (Some v))) s, ONone)) | None => None end
  | ARead i k => match v_of s i with
      | Some c => out false c k (fun c => (s, OVal (nth (Z.to_nat k) c None))) | None => None end
  | AWriteAt i k v => match v_of s i with
      | Some c => out true c k (fun c => (upd i (Some (zset c k (Some v))) s, ONone)) | None => None end
  | AReadAt i k => match v_of s i with
      | Some c => out true c k (fun c => (s, OVal (nth (Z.to_nat k) c None))) | None => None end
  | ASize i => match v_of s i with Some c => Some (s, ONum (Zlen c)) | None => None end
  end.
Fixpoint v_run {A} (debug : bool) (s : vst A) (os : list (aop A)) : option (vst A * list (pout A)) :=
  match os with
  | [] => Some (s, [])
  | o :: os => match v_step debug s o with
               | None => None
               | Some (s', r) => match v_run debug s' os with
                                 | None => None | Some (s'', rs) => Some (s'', r :: rs) end
               end
  end.
Definition not_self {A} (o : aop A) : bool :=
  match o with AAssign i j => negb (Nat.eqb i j) | _ => true end.

(** Representation: each live variable owns its own block holding its value. *)
Definition owns {A} (h : heap A) (o : aobj) (c : list (option A)) : Prop :=
  a_n o = Zlen c /\
  match a_buf o with
  | None => c = []
  | Some b => nth_error h b = Some (Some c)
  end.
Record ARel {A} (s : ast A) (v : vst A) : Prop := {
  r_len : length (st_objs s) = length v;
  r_own : forall i o, nth_error (st_objs s) i = Some (Some o) ->
          exists c, nth_error v i = Some (Some c) /\ owns (st_heap s) o c;
  r_dead : forall i, nth_error (st_objs s) i = Some None -> nth_error v i = Some None;
  r_sep : forall i j o o' b, nth_error (st_objs s) i = Some (Some o) ->
          nth_error (st_objs s) j = Some (Some o') ->
          a_buf o = Some b -> a_buf o' = Some b -> i = j
}.

Lemma upd_get {C} n m (x : C) l : nth_error (upd n x l) m =
  if Nat.eqb n m then (if Nat.ltb m (length l) then Some x else None) else nth_error l m.
Proof.
  destruct (Nat.eqb_spec n m) as [->|H].
  - destruct (Nat.ltb_spec m (length l)) as [H|H].
    + apply nth_error_upd_eq. exact H.
    + apply nth_error_None. rewrite upd_length. exact H.
  - apply nth_error_upd_neq. exact H.
Qed.

Lemma upd_same {C} n (x : C) l : nth_error l n = Some x -> upd n x l = l.
Proof.
  revert n; induction l as [|h t IH]; intros [|n] H; simpl in *; try congruence.
  f_equal. auto.
Qed.

Lemma nth_app_new {C} (l : list C) x i : nth_error (l ++ [x]) i =
  if Nat.ltb i (length l) then nth_error l i else if Nat.eqb i (length l) then Some x else None.
Proof.
  destruct (Nat.ltb_spec i (length l)) as [H|H].
  - apply nth_error_app1. exact H.
  - rewrite nth_error_app2 by exact H. destruct (Nat.eqb_spec i (length l)) as [->|Hn].
    + rewrite Nat.sub_diag. reflexivity.
    + apply nth_error_None. simpl. lia.
Qed.

Lemma nth_error_lt {C} (l : list C) i x : nth_error l i = Some x -> (i < length l)%nat.
Proof. intros H. apply nth_error_Some. congruence. Qed.

(** Replace variable [i] by an object owning a value through a block no other variable uses. *)
Lemma rel_put {A} (s : ast A) (v : vst A) h i o c old :
  ARel s v -> nth_error (st_objs s) i = Some old ->
  owns h o c ->
  (forall j oj bj, j <> i -> nth_error (st_objs s) j = Some (Some oj) -> a_buf oj = Some bj ->
     nth_error h bj = nth_error (st_heap s) bj /\ a_buf o <> Some bj) ->
  ARel (put s h i (Some o)) (upd i (Some c) v).
Proof.
  intros [HL HO HD HS] Hi Hown Hframe. pose proof (nth_error_lt _ _ _ Hi) as Hlt.
  constructor; cbn [put st_objs st_heap].
  - rewrite !upd_length. exact HL.
  - intros j oj Hj. rewrite upd_get in Hj; rewrite upd_get. rewrite <- HL.
    destruct (Nat.eqb_spec i j) as [Heq|Hn]; [subst j|].
    + destruct (Nat.ltb_spec i (length (st_objs s))); [|lia]. injection Hj as <-.
      exists c. split; [reflexivity|exact Hown].
    + destruct (HO j oj Hj) as (cj & Hv & Hn1 & Hb). exists cj. split; [exact Hv|]. split; [exact Hn1|].
      destruct (a_buf oj) as [bj|] eqn:Eb; [|exact Hb].
      destruct (Hframe j oj bj (not_eq_sym Hn) Hj Eb) as [-> _]. exact Hb.
  - intros j Hj. rewrite upd_get in Hj; rewrite upd_get. destruct (Nat.eqb_spec i j) as [Heq|Hn]; [subst j|].
    + destruct (Nat.ltb_spec i (length (st_objs s))); [discriminate|lia].
    + auto.
  - intros j k oj ok b Hj Hk Bj Bk. rewrite upd_get in Hj, Hk.
    destruct (Nat.eqb_spec i j) as [<-|Hnj], (Nat.eqb_spec i k) as [<-|Hnk]; auto.
    + destruct (Nat.ltb _ _); [|discriminate]. injection Hj as <-.
      destruct (Hframe k ok b (not_eq_sym Hnk) Hk Bk) as [_ Hc]. congruence.
    + destruct (Nat.ltb _ _); [|discriminate]. injection Hk as <-.
      destruct (Hframe j oj b (not_eq_sym Hnj) Hj Bj) as [_ Hc]. congruence.
    + eapply HS; eauto.
Qed.

Lemma rel_new {A} (s : ast A) (v : vst A) h o c :
  ARel s v -> owns h o c ->
  (forall j oj bj, nth_error (st_objs s) j = Some (Some oj) -> a_buf oj = Some bj ->
     nth_error h bj = nth_error (st_heap s) bj /\ a_buf o <> Some bj) ->
  ARel (mkSt h (st_objs s ++ [Some o])) (v ++ [Some c]).
Proof.
  intros [HL HO HD HS] Hown Hframe.
  constructor; cbn [st_objs st_heap].
  - rewrite !app_length, HL. reflexivity.
  - intros j oj Hj. rewrite nth_app_new in Hj; rewrite nth_app_new. rewrite <- HL.
    destruct (Nat.ltb_spec j (length (st_objs s))) as [Hlt|Hge].
    + destruct (HO j oj Hj) as (cj & Hv & Hn1 & Hb). exists cj. split; [exact Hv|]. split; [exact Hn1|].
      destruct (a_buf oj) as [bj|] eqn:Eb; [|exact Hb].
      destruct (Hframe j oj bj Hj Eb) as [-> _]. exact Hb.
    + destruct (Nat.eqb j (length (st_objs s))); [|discriminate]. injection Hj as <-.
      exists c. split; [reflexivity|exact Hown].
  - intros j Hj. rewrite nth_app_new in Hj; rewrite nth_app_new. rewrite <- HL.
    destruct (Nat.ltb _ _); [auto|]. destruct (Nat.eqb _ _); discriminate.
  - intros j k oj ok b Hj Hk Bj Bk. rewrite nth_app_new in Hj, Hk.
    destruct (Nat.ltb_spec j (length (st_objs s))) as [Hj1|Hj1],
             (Nat.ltb_spec k (length (st_objs s))) as [Hk1|Hk1].
    + eapply HS; eauto.
    + destruct (Nat.eqb _ _); [|discriminate]. injection Hk as <-.
      destruct (Hframe j oj b Hj Bj) as [_ Hc]. congruence.
    + destruct (Nat.eqb _ _); [|discriminate]. injection Hj as <-.
      destruct (Hframe k ok b Hk Bk) as [_ Hc]. congruence.
    + destruct (Nat.eqb_spec j (length (st_objs s))); [|discriminate].
      destruct (Nat.eqb_spec k (length (st_objs s))); [|discriminate]. congruence.
Qed.

Lemma rel_obj {A} (s : ast A) v i c : ARel s v -> v_of v i = Some c ->
  exists o, nth_error (st_objs s) i = Some (Some o) /\ obj_of s i = Ok o /\ owns (st_heap s) o c.
Proof.
  intros [HL HO HD HS] Hv. unfold v_of in Hv.
  destruct (nth_error v i) as [[c'|]|] eqn:E; try discriminate. injection Hv as ->.
  assert (Hlt : (i < length (st_objs s))%nat) by (rewrite HL; eapply nth_error_lt; eauto).
  destruct (nth_error (st_objs s) i) as [[o|]|] eqn:Eo.
  - destruct (HO i o Eo) as (c' & Hc & Hown). rewrite E in Hc. injection Hc as <-.
    exists o. unfold obj_of. rewrite Eo. auto.
  - specialize (HD i Eo). congruence.
  - apply nth_error_None in Eo. lia.
Qed.

(** A block in use by some variable is inside the heap. *)
Lemma rel_live {A} (s : ast A) v j oj bj : ARel s v ->
  nth_error (st_objs s) j = Some (Some oj) -> a_buf oj = Some bj ->
  exists c, nth_error (st_heap s) bj = Some (Some c) /\ (bj < length (st_heap s))%nat.
Proof.
  intros HR Hj Hb. destruct (r_own _ _ HR j oj Hj) as (c & _ & _ & Ho). rewrite Hb in Ho.
  exists c. split; [exact Ho|]. eapply nth_error_lt; eauto.
Qed.

(** [resize] of variable [i]: a fresh block, other blocks untouched. *)
Lemma resize_frame {A} (s : ast A) v i o n : ARel s v -> nth_error (st_objs s) i = Some (Some o) ->
  exists h, a_resize (st_heap s) o n = Ok (h, mkA n (Some (length (st_heap s)))) /\
    length h = S (length (st_heap s)) /\
    nth_error h (length (st_heap s)) = Some (Some (repeat None (Z.to_nat n))) /\
    forall j oj bj, j <> i -> nth_error (st_objs s) j = Some (Some oj) -> a_buf oj = Some bj ->
      nth_error h bj = nth_error (st_heap s) bj /\ length (st_heap s) <> bj.
Proof.
  intros HR Hi. unfold a_resize.
  destruct (a_buf o) as [b|] eqn:Eb.
  - destruct (rel_live s v i o b HR Hi Eb) as (c & Hc & Hlt).
    unfold h_free. rewrite Hc. cbn [bind h_alloc]. rewrite upd_length.
    eexists. split; [reflexivity|]. rewrite app_length, upd_length. split; [simpl; lia|]. split.
    + rewrite nth_app_new, upd_length, Nat.ltb_irrefl, Nat.eqb_refl. reflexivity.
    + intros j oj bj Hn Hj Hbj. destruct (rel_live s v j oj bj HR Hj Hbj) as (cj & Hcj & Hltj).
      split; [|lia]. rewrite nth_app_new, upd_length. destruct (Nat.ltb_spec bj (length (st_heap s))); [|lia].
      rewrite nth_error_upd_neq; [reflexivity|]. intros ->. apply Hn. eapply (r_sep _ _ HR); eauto.
  - cbn [bind h_alloc]. eexists. split; [reflexivity|]. rewrite app_length. split; [simpl; lia|]. split.
    + rewrite nth_app_new, Nat.ltb_irrefl, Nat.eqb_refl. reflexivity.
    + intros j oj bj Hn Hj Hbj. destruct (rel_live s v j oj bj HR Hj Hbj) as (cj & Hcj & Hltj).
      split; [|lia]. rewrite nth_app_new. destruct (Nat.ltb_spec bj (length (st_heap s))); [reflexivity|lia].
Qed.

(** Copying [n] cells between two different live blocks. *)
Lemma h_copy_spec {A} : forall n (h : heap A) k bs bd cs cd,
  bs <> bd -> nth_error h bs = Some (Some cs) -> nth_error h bd = Some (Some cd) ->
  0 <= k -> k + Z.of_nat n <= Zlen cs -> k + Z.of_nat n <= Zlen cd ->
  exists h' cd', h_copy h n k bs bd = Ok h' /\ length h' = length h /\
    (forall b, b <> bd -> nth_error h' b = nth_error h b) /\
    nth_error h' bd = Some (Some cd') /\ Zlen cd' = Zlen cd /\
    forall j, zget cd' j = if (k <=? j) && (j <? k + Z.of_nat n) then zget cs j else zget cd j.
Proof.
  induction n as [|n IH]; intros h k bs bd cs cd Hne Hs Hd Hk H1 H2; cbn [h_copy].
  - exists h, cd. repeat split; auto. intros j. destruct (_ && _) eqn:E; [lia|reflexivity].
  - unfold h_read at 1. rewrite Hs. destruct (zget_some cs k) as [x Hx]; [lia|]. rewrite Hx. cbn [bind].
    unfold h_write at 1. rewrite Hd. destruct (zget_some cd k) as [y Hy]; [lia|]. rewrite Hy. cbn [bind].
    destruct (IH (upd bd (Some (zset cd k x)) h) (k + 1) bs bd cs (zset cd k x))
      as (h' & cd' & E & HL & HF & HB & HZ & HJ); auto; try lia.
    + rewrite nth_error_upd_neq by congruence. exact Hs.
    + apply nth_error_upd_eq. eapply nth_error_lt; eauto.
    + rewrite Zlen_zset. lia.
    + exists h', cd'. split; [exact E|]. rewrite upd_length in HL. split; [exact HL|]. split.
      { intros b Hb. rewrite HF by exact Hb. apply nth_error_upd_neq. congruence. }
      split; [exact HB|]. rewrite Zlen_zset in HZ. split; [exact HZ|].
      intros j. rewrite HJ. destruct (Z.eq_dec k j) as [<-|Hkj].
      * destruct ((k + 1 <=? k) && _) eqn:?; [lia|]. rewrite zget_zset_eq by lia.
        destruct ((k <=? k) && _) eqn:?; [congruence|lia].
      * rewrite zget_zset_neq by exact Hkj.
        destruct ((k + 1 <=? j) && _) eqn:?; destruct ((k <=? j) && _) eqn:?; auto; lia.
Qed.

Lemma h_copy_all {A} (h : heap A) bs bd cs cd :
  bs <> bd -> nth_error h bs = Some (Some cs) -> nth_error h bd = Some (Some cd) -> Zlen cd = Zlen cs ->
  exists h', h_copy h (Z.to_nat (Zlen cs)) 0 bs bd = Ok h' /\ length h' = length h /\
    (forall b, b <> bd -> nth_error h' b = nth_error h b) /\ nth_error h' bd = Some (Some cs).
Proof.
  intros Hne Hs Hd HL. pose proof (Zlen_nonneg cs).
  destruct (h_copy_spec (Z.to_nat (Zlen cs)) h 0 bs bd cs cd) as (h' & cd' & E & HL' & HF & HB & HZ & HJ);
    auto; try lia.
  exists h'. repeat split; auto. rewrite HB. do 2 f_equal. apply list_ext; [lia|].
  intros j Hj. rewrite HJ. destruct (_ && _) eqn:?; [reflexivity|lia].
Qed.

Lemma h_fill_spec {A} : forall n (h : heap A) k b c v,
  nth_error h b = Some (Some c) -> 0 <= k -> k + Z.of_nat n <= Zlen c ->
  exists h' c', h_fill h n k b v = Ok h' /\ length h' = length h /\
    (forall b', b' <> b -> nth_error h' b' = nth_error h b') /\
    nth_error h' b = Some (Some c') /\ Zlen c' = Zlen c /\
    forall j, zget c' j = if (k <=? j) && (j <? k + Z.of_nat n) then Some v else zget c j.
Proof.
  induction n as [|n IH]; intros h k b c v Hb Hk H1; cbn [h_fill].
  - exists h, c. repeat split; auto. intros j. destruct (_ && _) eqn:E; [lia|reflexivity].
  - unfold h_write at 1. rewrite Hb. destruct (zget_some c k) as [y Hy]; [lia|]. rewrite Hy. cbn [bind].
    destruct (IH (upd b (Some (zset c k v)) h) (k + 1) b (zset c k v) v)
      as (h' & c' & E & HL & HF & HB & HZ & HJ).
    + apply nth_error_upd_eq. eapply nth_error_lt; eauto.
    + lia.
    + rewrite Zlen_zset. lia.
    + exists h', c'. split; [exact E|]. rewrite upd_length in HL. split; [exact HL|]. split.
      { intros b' Hb'. rewrite HF by exact Hb'. apply nth_error_upd_neq. congruence. }
      split; [exact HB|]. rewrite Zlen_zset in HZ. split; [exact HZ|].
      intros j. rewrite HJ. destruct (Z.eq_dec k j) as [<-|Hkj].
      * destruct ((k + 1 <=? k) && _) eqn:?; [lia|]. rewrite zget_zset_eq by lia.
        destruct ((k <=? k) && _) eqn:?; [reflexivity|lia].
      * rewrite zget_zset_neq by exact Hkj.
        destruct ((k + 1 <=? j) && _) eqn:?; destruct ((k <=? j) && _) eqn:?; auto; lia.
Qed.

Lemma elem_read_rel {A} debug checked (s : ast A) v i c k : ARel s v -> v_of v i = Some c -> 0 <= k ->
  elem_read debug checked s i k =
    if k <? Zlen c then Ok (nth (Z.to_nat k) c None)
    else if checked || debug then Throw OutOfRangeError else UB.
Proof.
  intros HR Hv Hk. destruct (rel_obj s v i c HR Hv) as (o & Ho & Eo & Hn & Hown).
  unfold elem_read. rewrite Eo. cbn [bind]. rewrite Hn.
  destruct (k <? Zlen c) eqn:E.
  - destruct (Zlen c <=? k) eqn:?; [lia|]. rewrite andb_false_r.
    destruct (a_buf o) as [b|]; [|subst c; znil; lia].
    unfold h_read. rewrite Hown. destruct (zget_some c k) as [x Hx]; [lia|]. rewrite Hx. f_equal.
    unfold zget in Hx. destruct (k <? 0) eqn:?; [lia|]. symmetry. apply nth_error_nth. exact Hx.
  - destruct (Zlen c <=? k) eqn:?; [|lia]. rewrite andb_true_r.
    destruct (checked || debug); [reflexivity|].
    destruct (a_buf o) as [b|]; [|reflexivity]. unfold h_read. rewrite Hown, zget_none by lia. reflexivity.
Qed.

Lemma elem_write_rel {A} debug checked (s : ast A) v i c k x : ARel s v -> v_of v i = Some c -> 0 <= k < Zlen c ->
  exists s', elem_write debug checked s i k x = Ok s' /\ ARel s' (upd i (Some (zset c k (Some x))) v).
Proof.
  intros HR Hv Hk. destruct (rel_obj s v i c HR Hv) as (o & Ho & Eo & Hn & Hown).
  unfold elem_write. rewrite Eo. cbn [bind]. rewrite Hn.
  destruct (Zlen c <=? k) eqn:?; [lia|]. rewrite andb_false_r.
  destruct (a_buf o) as [b|] eqn:Eb; [|subst c; znil; lia].
  unfold h_write. rewrite Hown. destruct (zget_some c k) as [y Hy]; [lia|]. rewrite Hy. cbn [bind].
  eexists. split; [reflexivity|].
  set (h := upd b (Some (zset c k (Some x))) (st_heap s)).
  replace (mkSt h (st_objs s)) with (put s h i (Some o)).
  - apply (rel_put s v h i o (zset c k (Some x)) (Some o)); auto.
    + split; [rewrite Zlen_zset; exact Hn|]. rewrite Eb. apply nth_error_upd_eq.
      eapply nth_error_lt; eauto.
    + intros j oj bj Hji Hj Hbj.
      assert (b <> bj) by (intros ->; apply Hji; eapply (r_sep _ _ HR); eauto).
      split; [apply nth_error_upd_neq; assumption|congruence].
  - unfold put. f_equal. apply upd_same. exact Ho.
Qed.

Lemma elem_write_out {A} debug checked (s : ast A) v i c k x : ARel s v -> v_of v i = Some c -> Zlen c <= k ->
  checked || debug = true -> elem_write debug checked s i k x = Throw OutOfRangeError.
Proof.
  intros HR Hv Hk Hd. destruct (rel_obj s v i c HR Hv) as (o & Ho & Eo & Hn & Hown).
  unfold elem_write. rewrite Eo. cbn [bind]. rewrite Hn, Hd.
  destruct (Zlen c <=? k) eqn:?; [reflexivity|lia].
Qed.

Lemma upd_upd {C} n (x y : C) l : upd n x (upd n y l) = upd n x l.
Proof. revert n; induction l as [|h t IH]; intros [|n]; simpl; auto. f_equal. apply IH. Qed.

Lemma a_step_rel {A} debug (s : ast A) v o v' r :
  ARel s v -> not_self o = true -> v_step debug v o = Some (v', r) ->
  exists s', a_step debug s o = Some (s', r) /\ ARel s' v'.
Proof.
  intros HR Hns Hv. unfold a_step. destruct o as [|n|j|i j|i n|i|i n x|i|i k x|i k|i k x|i k|i];
    cbn [v_step a_step_res not_self] in *.
  - injection Hv as <- <-. eexists; split; [reflexivity|].
    apply rel_new; auto. + split; reflexivity. + cbn. intros; split; congruence.
  - destruct (0 <=? n) eqn:En; [|discriminate]. injection Hv as <- <-.
    eexists; split; [reflexivity|]. apply rel_new; auto.
    + split; cbn; [rewrite Zlen_repeat; lia|]. rewrite nth_app_new, Nat.ltb_irrefl, Nat.eqb_refl. reflexivity.
    + intros j oj bj Hj Hb. destruct (rel_live s v j oj bj HR Hj Hb) as (c & _ & Hlt). cbn.
      rewrite nth_app_new. destruct (Nat.ltb_spec bj (length (st_heap s))); [|lia].
      split; [reflexivity|]. intros [=]. lia.
  - (* copy construction *)
    destruct (v_of v j) as [c|] eqn:Ej; [|discriminate]. injection Hv as <- <-.
    destruct (rel_obj s v j c HR Ej) as (o & Ho & Eo & Hn & Hown). rewrite Eo. cbn [bind]. rewrite Hn.
    destruct (Zlen c =? 0) eqn:E0.
    + eexists; split; [reflexivity|]. apply rel_new; auto.
      * destruct c; [split; reflexivity|rewrite Zlen_cons in E0; pose proof (Zlen_nonneg c); lia].
      * cbn. intros; split; congruence.
    + unfold a_resize at 1. cbn [a_buf bind h_alloc fst snd].
      destruct (a_buf o) as [b|] eqn:Eb; [|subst c; znil; lia].
      unfold a_copy. rewrite Eb. cbn [a_buf]. rewrite Hn.
      assert (Hb : (b < length (st_heap s))%nat) by (eapply nth_error_lt; eauto).
      destruct (h_copy_all (st_heap s ++ [Some (repeat None (Z.to_nat (Zlen c)))]) b (length (st_heap s)) c
                 (repeat None (Z.to_nat (Zlen c)))) as (h' & -> & HL & HF & HB).
      * lia.
      * rewrite nth_error_app1 by lia. exact Hown.
      * rewrite nth_app_new, Nat.ltb_irrefl, Nat.eqb_refl. reflexivity.
      * rewrite Zlen_repeat. pose proof (Zlen_nonneg c). lia.
      * cbn [bind]. eexists; split; [reflexivity|]. apply rel_new; auto.
        -- split; [reflexivity|exact HB].
        -- intros j' oj bj Hj Hbj. destruct (rel_live s v j' oj bj HR Hj Hbj) as (c' & _ & Hlt). cbn.
           rewrite HF by lia. rewrite nth_error_app1 by lia. split; [reflexivity|]. intros [=]. lia.
  - (* assignment between different variables *)
    destruct (v_of v i) as [ci|] eqn:Ei; [|discriminate].
    destruct (v_of v j) as [c|] eqn:Ej; [|discriminate]. injection Hv as <- <-.
    destruct (Nat.eqb_spec i j) as [|Hij]; [discriminate|].
    destruct (rel_obj s v i ci HR Ei) as (oi & Hoi & Eoi & Hni & Howni). rewrite Eoi. cbn [bind].
    destruct (rel_obj s v j c HR Ej) as (o & Ho & Eo & Hn & Hown). rewrite Eo. cbn [bind]. rewrite Hn.
    destruct (Zlen c =? 0) eqn:E0.
    + assert (Hc : c = []) by (destruct c; auto; rewrite Zlen_cons in E0; pose proof (Zlen_nonneg c); lia).
      unfold a_clear. destruct (a_buf oi) as [bi|] eqn:Ebi.
      * unfold h_free. rewrite Howni. cbn [bind fst snd]. eexists; split; [reflexivity|].
        eapply rel_put; eauto; [subst c; split; reflexivity|].
        intros j' oj bj Hji Hj Hbj.
        assert (bi <> bj) by (intros ->; apply Hji; eapply (r_sep _ _ HR); eauto).
        rewrite nth_error_upd_neq by assumption. cbn. split; congruence.
      * cbn [bind fst snd]. eexists; split; [reflexivity|].
        eapply rel_put; eauto; [subst c; split; reflexivity|]. cbn. intros; split; congruence.
    + destruct (resize_frame s v i oi (Zlen c) HR Hoi) as (h & -> & HLh & Hnew & HF).
      cbn [bind fst snd].
      unfold obj_of at 1. cbn [put st_objs]. rewrite nth_error_upd_neq by congruence. rewrite Ho. cbn [bind].
      unfold obj_of at 1. cbn [put st_objs]. rewrite nth_error_upd_eq by (eapply nth_error_lt; eauto). cbn [bind].
      destruct (a_buf o) as [b|] eqn:Eb; [|subst c; znil; lia].
      destruct (HF j o b (not_eq_sym Hij) Ho Eb) as [Hbb Hbn].
      unfold a_copy. rewrite Eb. cbn [a_buf put st_heap]. rewrite Hn.
      destruct (h_copy_all h b (length (st_heap s)) c (repeat None (Z.to_nat (Zlen c)))) as (h' & -> & HL & HF' & HB).
      * congruence.
      * rewrite Hbb. exact Hown.
      * exact Hnew.
      * rewrite Zlen_repeat. pose proof (Zlen_nonneg c). lia.
      * cbn [bind]. eexists; split; [reflexivity|].
        change (mkSt h' (upd i (Some (mkA (Zlen c) (Some (length (st_heap s))))) (st_objs s)))
          with (put s h' i (Some (mkA (Zlen c) (Some (length (st_heap s)))))).
        eapply rel_put; eauto.
        -- split; [reflexivity|exact HB].
        -- intros j' oj bj Hji Hj Hbj. destruct (HF j' oj bj Hji Hj Hbj) as [H1 H2]. cbn.
           rewrite HF' by congruence. split; congruence.
  - (* resize *)
    destruct (v_of v i) as [ci|] eqn:Ei; [|discriminate].
    destruct (0 <=? n) eqn:En; [|discriminate]. injection Hv as <- <-.
    destruct (rel_obj s v i ci HR Ei) as (oi & Hoi & Eoi & Hni & Howni). rewrite Eoi. cbn [bind].
    destruct (resize_frame s v i oi n HR Hoi) as (h & -> & HLh & Hnew & HF). cbn [bind fst snd].
    eexists; split; [reflexivity|]. eapply rel_put; eauto.
    + split; cbn; [rewrite Zlen_repeat; lia|exact Hnew].
    + intros j' oj bj Hji Hj Hbj. destruct (HF j' oj bj Hji Hj Hbj) as [H1 H2]. cbn. split; congruence.
  - (* clear *)
    destruct (v_of v i) as [ci|] eqn:Ei; [|discriminate]. injection Hv as <- <-.
    destruct (rel_obj s v i ci HR Ei) as (oi & Hoi & Eoi & Hni & Howni). rewrite Eoi. cbn [bind].
    unfold a_clear. destruct (a_buf oi) as [bi|] eqn:Ebi.
    + unfold h_free. rewrite Howni. cbn [bind fst snd]. eexists; split; [reflexivity|].
      eapply rel_put; eauto; [split; reflexivity|].
      intros j' oj bj Hji Hj Hbj.
      assert (bi <> bj) by (intros ->; apply Hji; eapply (r_sep _ _ HR); eauto).
      rewrite nth_error_upd_neq by assumption. cbn. split; congruence.
    + cbn [bind fst snd]. eexists; split; [reflexivity|].
      eapply rel_put; eauto; [split; reflexivity|]. cbn. intros; split; congruence.
  - (* constant blueprint *)
    destruct (v_of v i) as [ci|] eqn:Ei; [|discriminate].
    destruct (0 <=? n) eqn:En; [|discriminate]. injection Hv as <- <-.
    destruct (rel_obj s v i ci HR Ei) as (oi & Hoi & Eoi & Hni & Howni). rewrite Eoi. cbn [bind].
    destruct (resize_frame s v i oi n HR Hoi) as (h & -> & HLh & Hnew & HF). cbn [bind fst snd a_buf].
    destruct (h_fill_spec (Z.to_nat n) h 0 (length (st_heap s)) (repeat None (Z.to_nat n)) (Some x) Hnew)
      as (h' & c' & -> & HL & HF' & HB & HZ & HJ); [lia|rewrite Zlen_repeat; lia|].
    cbn [bind]. eexists; split; [reflexivity|].
    assert (Hc' : c' = repeat (Some x) (Z.to_nat n)).
    { rewrite Zlen_repeat in HZ. apply list_ext; [rewrite Zlen_repeat; exact HZ|].
      intros m Hm. rewrite HJ. destruct (_ && _) eqn:?; [|lia]. rewrite zget_repeat by lia. reflexivity. }
    subst c'. eapply rel_put; eauto.
    + split; cbn; [rewrite Zlen_repeat; lia|exact HB].
    + intros j' oj bj Hji Hj Hbj. destruct (HF j' oj bj Hji Hj Hbj) as [H1 H2]. cbn.
      rewrite HF' by congruence. split; congruence.
  - (* destruction *)
    destruct (v_of v i) as [ci|] eqn:Ei; [|discriminate]. injection Hv as <- <-.
    destruct (rel_obj s v i ci HR Ei) as (oi & Hoi & Eoi & Hni & Howni). rewrite Eoi. cbn [bind].
    assert (exists h, (match a_buf oi with Some b => h_free (st_heap s) b | None => Ok (st_heap s) end) = Ok h /\
       forall j oj bj, j <> i -> nth_error (st_objs s) j = Some (Some oj) -> a_buf oj = Some bj ->
         nth_error h bj = nth_error (st_heap s) bj) as (h & -> & HF).
    { destruct (a_buf oi) as [bi|] eqn:Ebi.
      - unfold h_free. rewrite Howni. eexists; split; [reflexivity|]. intros j oj bj Hji Hj Hbj.
        apply nth_error_upd_neq. intros ->. apply Hji. eapply (r_sep _ _ HR); eauto.
      - eexists; split; [reflexivity|]. auto. }
    cbn [bind]. eexists; split; [reflexivity|].
    destruct HR as [HL HO HD HS]. constructor; cbn [put st_objs st_heap].
    + rewrite !upd_length. exact HL.
    + intros j oj Hj. rewrite upd_get in Hj; rewrite upd_get. destruct (Nat.eqb_spec i j) as [Heq|Hn']; [subst j|].
      * destruct (Nat.ltb _ _); discriminate.
      * destruct (HO j oj Hj) as (cj & Hv & Hn1 & Hb). exists cj. split; [exact Hv|]. split; [exact Hn1|].
        destruct (a_buf oj) as [bj|] eqn:Eb; [|exact Hb]. rewrite (HF j oj bj); auto.
    + intros j Hj. rewrite upd_get in Hj; rewrite upd_get. rewrite <- HL. destruct (Nat.eqb_spec i j) as [Heq|Hn']; [subst j|auto].
      destruct (Nat.ltb _ _); [reflexivity|discriminate].
    + intros j k oj ok b Hj Hk Bj Bk. rewrite upd_get in Hj, Hk.
      destruct (Nat.eqb_spec i j); [destruct (Nat.ltb _ _); discriminate|].
      destruct (Nat.eqb_spec i k); [destruct (Nat.ltb _ _); discriminate|]. eapply HS; eauto.
  - (* write [] *)
    destruct (v_of v i) as [c|] eqn:Ei; [|discriminate].
    destruct ((0 <=? k) && (k <? Zlen c)) eqn:Ek.
    + injection Hv as <- <-. destruct (elem_write_rel debug false s v i c k x HR Ei) as (s' & -> & HR'); [lia|].
      cbn [bind]. eauto.
    + cbn [orb] in Hv. destruct debug; [|rewrite andb_false_r in Hv; discriminate].
      destruct (0 <=? k) eqn:Eb; [|discriminate]. cbn [andb] in Hv, Ek. injection Hv as <- <-.
      rewrite (elem_write_out true false s v i c k x HR Ei); [|lia|reflexivity]. cbn [bind]. eauto.
  - destruct (v_of v i) as [c|] eqn:Ei; [|discriminate].
    destruct ((0 <=? k) && (k <? Zlen c)) eqn:Ek.
    + injection Hv as <- <-. rewrite (elem_read_rel debug false s v i c k HR Ei) by lia.
      destruct (k <? Zlen c) eqn:?; [|lia]. cbn [bind]. eauto.
    + cbn [orb] in Hv. destruct debug; [|rewrite andb_false_r in Hv; discriminate].
      destruct (0 <=? k) eqn:Eb; [|discriminate]. cbn [andb] in Hv, Ek. injection Hv as <- <-.
      rewrite (elem_read_rel true false s v i c k HR Ei) by lia.
      destruct (k <? Zlen c) eqn:?; [lia|]. cbn [orb bind]. eauto.
  - destruct (v_of v i) as [c|] eqn:Ei; [|discriminate].
    destruct ((0 <=? k) && (k <? Zlen c)) eqn:Ek.
    + injection Hv as <- <-. destruct (elem_write_rel debug true s v i c k x HR Ei) as (s' & -> & HR'); [lia|].
      cbn [bind]. eauto.
    + cbn [orb] in Hv. destruct (0 <=? k) eqn:Eb; [|discriminate]. cbn [andb] in Hv, Ek. injection Hv as <- <-.
      rewrite (elem_write_out debug true s v i c k x HR Ei); [|lia|reflexivity]. cbn [bind]. eauto.
  - destruct (v_of v i) as [c|] eqn:Ei; [|discriminate].
    destruct ((0 <=? k) && (k <? Zlen c)) eqn:Ek.
    + injection Hv as <- <-. rewrite (elem_read_rel debug true s v i c k HR Ei) by lia.
      destruct (k <? Zlen c) eqn:?; [|lia]. cbn [bind]. eauto.
    + cbn [orb] in Hv. destruct (0 <=? k) eqn:Eb; [|discriminate]. cbn [andb] in Hv, Ek. injection Hv as <- <-.
      rewrite (elem_read_rel debug true s v i c k HR Ei) by lia.
      destruct (k <? Zlen c) eqn:?; [lia|]. cbn [orb bind]. eauto.
  - destruct (v_of v i) as [c|] eqn:Ei; [|discriminate]. injection Hv as <- <-.
    destruct (rel_obj s v i c HR Ei) as (o & Ho & Eo & Hn & Hown). rewrite Eo. cbn [bind]. rewrite Hn. eauto.
Qed.

Lemma a_run_rel {A} debug os : forall (s : ast A) v v' rs,
  ARel s v -> forallb not_self os = true -> v_run debug v os = Some (v', rs) ->
  exists s', a_run debug s os = Some (s', rs) /\ ARel s' v'.
Proof.
  induction os as [|o os IH]; intros s v v' rs HR Hn Hv; cbn [v_run a_run forallb] in *.
  - injection Hv as <- <-. eauto.
  - apply andb_true_iff in Hn as [Hn1 Hn2].
    destruct (v_step debug v o) as [[v1 r]|] eqn:E1; [|discriminate].
    destruct (v_run debug v1 os) as [[v2 rs2]|] eqn:E2; [|discriminate]. injection Hv as <- <-.
    destruct (a_step_rel debug s v o v1 r HR Hn1 E1) as (s1 & -> & HR1).
    destruct (IH s1 v1 v2 rs2 HR1 Hn2 E2) as (s2 & -> & HR2). eauto.
Qed.

Lemma a_init_rel {A} : ARel (@a_init A) [].
Proof.
  constructor; cbn; auto; intros i; try (intros [=]); destruct i; try discriminate; intros; destruct j; discriminate.
Qed.

Lemma arrays_are_values {A} debug (os : list (aop A)) v' rs :
  forallb not_self os = true -> v_run debug [] os = Some (v', rs) ->
  exists s', a_run debug a_init os = Some (s', rs).
Proof.
  intros Hn Hv. destruct (a_run_rel debug os a_init [] v' rs a_init_rel Hn Hv) as (s' & E & _). eauto.
Qed.

(** Self assignment loses the contents: [a = a] leaves indeterminate cells. *)
Lemma self_assign_loses :
  exists (os : list (aop Z)) v' rs rs', v_run true [] os = Some (v', rs) /\
    (exists s', a_run true a_init os = Some (s', rs')) /\ rs <> rs'.
Proof.
  exists [ANewSized 2; AWrite 0 0 5; AWrite 0 1 6; AAssign 0 0; ARead 0 0]. do 3 eexists.
  split; [reflexivity|]. split; [eexists; vm_compute; reflexivity|]. intros [=].
Qed.

(** * Stencils (C06) *)
(** In-window access through a window [b, b+len) inside the array: element b+i, both builds. *)
Lemma sten_in_window {C} (a : list C) b len i : 0 <= b -> b + len <= Zlen a -> 0 <= i < len ->
  forall debug, exists c, nth_error a (Z.to_nat (b + i)) = Some c /\
    sten_get debug a (mkSten b (b + len)) i = Ok c /\
    (0 < b + i -> sten_at a (mkSten b (b + len)) i = Ok c).
Proof.
  intros Hb HL Hi debug. destruct (zget_some a (b + i)) as [c Hc]; [lia|]. exists c.
  split; [unfold zget in Hc; destruct (b + i <? 0) eqn:?; [lia|exact Hc]|].
  unfold sten_get, sten_at, assert_throw. cbn [s_b s_e].
  destruct (0 <=? b + i) eqn:?; [|lia]. destruct (b + i <=? Zlen a) eqn:?; [|lia].
  rewrite !andb_false_r. cbn [bind]. rewrite Hc. split; [reflexivity|]. intros H.
  destruct (b + i <=? 0) eqn:?; [lia|]. destruct (Zlen a <=? b + i) eqn:?; [lia|]. reflexivity.
Qed.

Lemma sten_write_window {C} (a : list C) b len i c : 0 <= b -> b + len <= Zlen a -> 0 <= i < len ->
  forall debug, exists a', sten_set debug a (mkSten b (b + len)) i c = Ok a' /\ length a' = length a /\
    nth_error a' (Z.to_nat (b + i)) = Some c /\
    forall j, j <> Z.to_nat (b + i) -> nth_error a' j = nth_error a j.
Proof.
  intros Hb HL Hi debug. exists (zset a (b + i) c).
  destruct (zget_some a (b + i)) as [x Hx]; [lia|].
  unfold sten_set, assert_throw. cbn [s_b s_e].
  destruct (0 <=? b + i) eqn:?; [|lia]. destruct (b + i <=? Zlen a) eqn:?; [|lia].
  rewrite !andb_false_r. cbn [bind]. rewrite Hx. unfold zset, Zlen in *.
  destruct (b + i <? 0) eqn:?; [lia|]. rewrite upd_length, nth_error_upd_eq by lia.
  repeat split; auto. intros j Hj. apply nth_error_upd_neq. congruence.
Qed.

(** Creating a window in a debug build: accepted exactly when it lies inside the array. *)
Lemma arr_stencil_debug n start len : 0 <= n < two32 -> 0 <= start < two32 -> 0 <= len < two32 ->
  arr_stencil true n start len =
    if (start <? n) && (start + len <=? n) then Ok (mkSten start (start + len)) else Throw OutOfRangeError.
Proof.
  intros Hn Hs Hl. unfold arr_stencil, sten_ctor, assert_throw. cbn [andb negb].
  destruct (start <? n) eqn:E1; cbn [negb bind andb]; [|reflexivity].
  assert (Hu : u32 (start + len) = start + len \/ u32 (start + len) = start + len - two32).
  { unfold u32. destruct (Z_lt_le_dec (start + len) two32).
    - left. apply Z.mod_small. lia.
    - right. symmetry. apply (Z.mod_unique _ _ 1); lia. }
  destruct (u32 (start + len) <=? n) eqn:E2; cbn [negb bind].
  - destruct ((0 <=? start) && (start <=? n)) eqn:E3; [|lia]. cbn [negb bind].
    destruct ((0 <=? start + len) && (start + len <=? n)) eqn:E4; cbn [negb bind].
    + destruct (start + len <=? n) eqn:?; [reflexivity|lia].
    + destruct (start + len <=? n) eqn:?; [lia|reflexivity].
  - destruct (start + len <=? n) eqn:E5; [lia|reflexivity].
Qed.

(** at() never leaves the array, in any build. *)
Lemma sten_at_safe {C} (a : list C) s i : sten_at a s i <> UB.
Proof.
  unfold sten_at. destruct (s_b s + i <=? 0) eqn:?; [discriminate|].
  destruct (Zlen a <=? s_b s + i) eqn:?; [discriminate|].
  destruct (zget_some a (s_b s + i)) as [c ->]; [lia|discriminate].
Qed.

(** [] in a debug build leaves the array at exactly one index: the one past the end. *)
Lemma sten_get_debug {C} (a : list C) b e i : 0 <= b -> 0 <= i ->
  (sten_get true a (mkSten b e) i = UB <-> b + i = Zlen a) /\
  (Zlen a < b + i -> sten_get true a (mkSten b e) i = Throw OutOfRangeError).
Proof.
  intros Hb Hi. unfold sten_get, assert_throw; cbn [s_b andb].
  destruct (0 <=? b + i) eqn:?; [|lia]. cbn [negb bind].
  destruct (b + i <=? Zlen a) eqn:?; cbn [negb bind].
  - split; [|lia]. split.
    + intros H. destruct (Z_lt_le_dec (b + i) (Zlen a)); [|lia].
      destruct (zget_some a (b + i)) as [c Hc]; [lia|]. rewrite Hc in H. discriminate.
    + intros H. rewrite zget_none by lia. reflexivity.
  - split; [split; [discriminate|lia]|auto].
Qed.

Lemma sten_get_past_end :
  exists (a : list Z) s, arr_stencil true (Zlen a) 1 2 = Ok s /\ sten_get true a s 2 = UB.
Proof. exists [1; 2; 3]. eexists. split; reflexivity. Qed.

Lemma sten_get_outside_window :
  exists (a : list Z) s, arr_stencil true (Zlen a) 0 2 = Ok s /\ sten_size s = 2 /\
    sten_get true a s 2 = Ok 3 /\ sten_at a s 2 = Ok 3.
Proof. exists [1; 2; 3]. eexists. repeat split; reflexivity. Qed.

Lemma sten_at_first_throws :
  exists (a : list Z) s, arr_stencil true (Zlen a) 0 2 = Ok s /\ sten_at a s 0 = Throw OutOfRangeError.
Proof. exists [1; 2; 3]. eexists. split; reflexivity. Qed.

Lemma sten_sub_escapes :
  exists (n : Z) s t, arr_stencil true n 0 2 = Ok s /\ sten_sub true n s 1 4 = Ok t /\
    s_e s < s_e t.
Proof. exists 5. do 2 eexists. split; [reflexivity|]. split; reflexivity. Qed.

(** * Guard bytes (C07) *)
(** Last value stored at offset [i] by a sequence of stores, if any. *)
Fixpoint last_store (ws : list (Z * Z)) (i : Z) : option Z :=
  match ws with
  | [] => None
  | (j, b) :: ws => match last_store ws i with
                    | Some x => Some x
                    | None => if j =? i then Some b else None
                    end
  end.
Definition stores (g : garr) (ws : list (Z * Z)) : garr := fold_left (fun g w => g_store g (fst w) (snd w)) ws g.

Lemma stores_mem ws : forall g i, (forall w, In w ws -> -4 <= fst w < Zlen (g_mem g) - 4) ->
  0 <= i < Zlen (g_mem g) ->
  g_bytes (stores g ws) = g_bytes g /\ Zlen (g_mem (stores g ws)) = Zlen (g_mem g) /\
  zget (g_mem (stores g ws)) i = match last_store ws (i - 4) with Some b => Some b | None => zget (g_mem g) i end.
Proof.
  induction ws as [|[j b] ws IH]; intros g i Hin Hi; cbn [stores fold_left last_store fst snd]; [auto|].
  change (fold_left _ ws ?x) with (stores x ws).
  assert (HL : Zlen (g_mem (g_store g j b)) = Zlen (g_mem g)) by (unfold g_store; cbn; apply Zlen_zset).
  destruct (IH (g_store g j b) i) as (H1 & H2 & H3).
  - intros w Hw. rewrite HL. apply Hin. right. exact Hw.
  - lia.
  - split; [exact H1|]. split; [lia|]. rewrite H3. destruct (last_store ws (i - 4)); [reflexivity|].
    unfold g_store; cbn [g_mem]. pose proof (Hin (j, b) (or_introl eq_refl)) as Hj. cbn [fst] in Hj.
    destruct (j =? i - 4) eqn:E.
    + replace (j + 4) with i by lia. apply zget_zset_eq. lia.
    + apply zget_zset_neq. lia.
Qed.

Lemma g_new_len junk : Zlen (g_mem (g_new junk)) = Zlen junk + 8.
Proof. unfold g_new; cbn [g_mem]. rewrite !Zlen_app, !Zlen_repeat. unfold guard_len. lia. Qed.

Lemma g_new_guard junk i : 0 <= i < 4 \/ Zlen junk + 4 <= i < Zlen junk + 8 ->
  zget (g_mem (g_new junk)) i = Some magic.
Proof.
  pose proof (Zlen_nonneg junk).
  intros [Hi|Hi]; unfold g_new; cbn [g_mem]; unfold guard_len.
  - rewrite zget_app_l by (rewrite Zlen_repeat; lia). apply zget_repeat. lia.
  - rewrite zget_app_r by (rewrite Zlen_repeat; lia). rewrite Zlen_repeat.
    rewrite zget_app_r by lia. apply zget_repeat. lia.
Qed.

Lemma any_differs_spec l : any_differs l = true <-> exists i b, 0 <= i < Zlen l /\ zget l i = Some b /\ b <> magic.
Proof.
  unfold any_differs. rewrite existsb_exists. split.
  - intros (b & Hin & Hb). apply In_nth_error in Hin as [n Hn]. exists (Z.of_nat n), b.
    assert (Hz : zget l (Z.of_nat n) = Some b).
    { unfold zget. destruct (Z.of_nat n <? 0) eqn:?; [lia|]. rewrite Nat2Z.id. exact Hn. }
    split; [eapply zget_inv; exact Hz|]. split; [exact Hz|]. lia.
  - intros (i & b & Hi & Hg & Hb). exists b. split; [|lia].
    unfold zget in Hg. destruct (i <? 0); [discriminate|]. eapply nth_error_In; eauto.
Qed.

Lemma zget_firstn {C} n (l : list C) i : i < Z.of_nat n -> zget (firstn n l) i = zget l i.
Proof.
  revert l i; induction n as [|n IH]; intros l i Hi.
  - rewrite !zget_none; auto; cbn; lia.
  - destruct l as [|x l]; [reflexivity|]. cbn [firstn].
    destruct (Z_lt_le_dec i 0); [rewrite !zget_none; auto; lia|].
    destruct (Z.eq_dec i 0) as [->|]; [reflexivity|]. rewrite !zget_cons_pos by lia. apply IH. lia.
Qed.

Lemma zget_skipn {C} k (l : list C) j : 0 <= j -> zget (skipn k l) j = zget l (Z.of_nat k + j).
Proof.
  revert l j; induction k as [|k IH]; intros l j Hj; [reflexivity|].
  destruct l as [|a l]; [cbn [skipn]; rewrite !zget_none; auto; znil; lia|].
  cbn [skipn]. rewrite IH by lia. rewrite zget_cons_pos by lia. f_equal. lia.
Qed.

Lemma guards_exact junk ws :
  (forall w, In w ws -> -4 <= fst w < Zlen junk + 4) ->
  let g := stores (g_new junk) ws in
  (g_underrun g = true <-> exists i b, -4 <= i < 0 /\ last_store ws i = Some b /\ b <> magic) /\
  (g_overrun g = true <-> exists i b, Zlen junk <= i < Zlen junk + 4 /\ last_store ws i = Some b /\ b <> magic) /\
  g_overflow g = g_underrun g || g_overrun g.
Proof.
  intros Hin g. pose proof (Zlen_nonneg junk) as Hj0.
  assert (Hin' : forall w, In w ws -> -4 <= fst w < Zlen (g_mem (g_new junk)) - 4)
    by (intros w Hw; rewrite g_new_len; specialize (Hin w Hw); lia).
  assert (HM : forall i, 0 <= i < Zlen junk + 8 ->
     Zlen (g_mem g) = Zlen junk + 8 /\ g_bytes g = length junk /\
     zget (g_mem g) i = match last_store ws (i - 4) with Some b => Some b | None => zget (g_mem (g_new junk)) i end).
  { intros i Hi. destruct (stores_mem ws (g_new junk) i Hin') as (H1 & H2 & H3); [rewrite g_new_len; lia|].
    rewrite g_new_len in H2. auto. }
  destruct (HM 0) as (HL & HB & _); [lia|].
  split; [|split].
  - unfold g_underrun. rewrite any_differs_spec. unfold guard_len. split.
    + intros (i & b & Hi & Hg & Hb). unfold Zlen in Hi, HL. rewrite firstn_length in Hi.
      rewrite zget_firstn in Hg by lia. destruct (HM i) as (_ & _ & Hz); [unfold Zlen; lia|]. rewrite Hz in Hg.
      destruct (last_store ws (i - 4)) as [x|] eqn:E.
      * injection Hg as ->. exists (i - 4), b. repeat split; auto; lia.
      * rewrite g_new_guard in Hg by lia. congruence.
    + intros (i & b & Hi & Hl & Hb). exists (i + 4), b. split; [|split; [|exact Hb]].
      * unfold Zlen in HL. unfold Zlen. rewrite firstn_length. lia.
      * rewrite zget_firstn by lia. destruct (HM (i + 4)) as (_ & _ & ->); [lia|].
        replace (i + 4 - 4) with i by lia. rewrite Hl. reflexivity.
  - unfold g_overrun. rewrite any_differs_spec. unfold guard_len. rewrite HB. split.
    + intros (i & b & Hi & Hg & Hb). unfold Zlen in Hi, HL. rewrite firstn_length, skipn_length in Hi.
      rewrite zget_firstn, zget_skipn in Hg by lia.
      destruct (HM (Z.of_nat (4 + length junk) + i)) as (_ & _ & Hz); [unfold Zlen; lia|]. rewrite Hz in Hg.
      destruct (last_store ws _) as [x|] eqn:E.
      * injection Hg as ->. eexists _, b. split; [|split; [exact E|exact Hb]]. unfold Zlen. lia.
      * rewrite g_new_guard in Hg by (unfold Zlen; lia). congruence.
    + intros (i & b & Hi & Hl & Hb). exists (i - Zlen junk), b. split; [|split; [|exact Hb]].
      * unfold Zlen in HL, Hi. unfold Zlen. rewrite firstn_length, skipn_length. lia.
      * rewrite zget_firstn, zget_skipn by lia.
        replace (Z.of_nat (4 + length junk) + (i - Zlen junk)) with (i + 4) by (unfold Zlen; lia).
        destruct (HM (i + 4)) as (_ & _ & ->); [lia|].
        replace (i + 4 - 4) with i by lia. rewrite Hl. reflexivity.
  - unfold g_overflow. apply orb_comm.
Qed.

Lemma last_store_In ws i b : last_store ws i = Some b -> exists w, In w ws /\ fst w = i.
Proof.
  induction ws as [|[j x] ws IH]; cbn [last_store]; [discriminate|].
  destruct (last_store ws i); intros H.
  - destruct (IH H) as (w & Hw & E). exists w. split; [right; exact Hw|exact E].
  - destruct (j =? i) eqn:Ej; [|discriminate]. exists (j, x). split; [left; reflexivity|cbn; lia].
Qed.

Lemma guards_silent junk ws : (forall w, In w ws -> 0 <= fst w < Zlen junk) ->
  g_overflow (stores (g_new junk) ws) = false.
Proof.
  intros Hin. destruct (guards_exact junk ws) as (HU & HO & E); [intros w Hw; specialize (Hin w Hw); lia|].
  rewrite E. apply orb_false_iff. split.
  - apply not_true_is_false. intros H. apply HU in H as (i & b & Hi & Hl & _).
    apply last_store_In in Hl as (w & Hw & <-). specialize (Hin w Hw). lia.
  - apply not_true_is_false. intros H. apply HO in H as (i & b & Hi & Hl & _).
    apply last_store_In in Hl as (w & Hw & <-). specialize (Hin w Hw). lia.
Qed.

(** * Comma initialisation (C08) *)
Lemma raw_store_ok {C} (a : list C) i c : 0 <= i < Zlen a -> raw_store a i c = Ok (zset a i c).
Proof. intros H. unfold raw_store. destruct (zget_some a i H) as [x ->]. reflexivity. Qed.

Lemma zset_app {C} (p : list C) x q c : zset (p ++ x :: q) (Zlen p) c = p ++ c :: q.
Proof.
  unfold zset. pose proof (Zlen_nonneg p). destruct (Zlen p <? 0) eqn:?; [lia|].
  unfold Zlen. rewrite Nat2Z.id. induction p as [|y p IH]; [reflexivity|]. cbn.
  f_equal. apply IH. apply Zlen_nonneg. destruct (Zlen p <? 0) eqn:E; auto. pose proof (Zlen_nonneg p). lia.
Qed.

Lemma li_rest_spec {C} debug vs : forall (p q : list C),
  (length vs <= length q)%nat ->
  li_rest debug (mkLI (p ++ q) (Zlen p) (Zlen p)) vs = (p ++ vs ++ skipn (length vs) q, Ok tt).
Proof.
  induction vs as [|v vs IH]; intros p q H; cbn [li_rest length skipn app] in *; [reflexivity|].
  destruct q as [|x q]; [cbn in H; lia|]. cbn [length skipn] in *.
  unfold li_next; cbn [li_cur li_mem li_pos]. unfold assert_throw.
  assert (HL : Zlen p < Zlen (p ++ x :: q)) by (rewrite Zlen_app, Zlen_cons; pose proof (Zlen_nonneg q); lia).
  destruct (Zlen p <? Zlen (p ++ x :: q)) eqn:?; [|lia]. rewrite andb_false_r. cbn [bind].
  rewrite raw_store_ok by (pose proof (Zlen_nonneg p); lia). cbn [bind]. rewrite zset_app.
  replace (p ++ v :: q) with ((p ++ [v]) ++ q) by (rewrite <- app_assoc; reflexivity).
  replace (Zlen p + 1) with (Zlen (p ++ [v])) by (rewrite Zlen_app; reflexivity).
  rewrite IH by lia. rewrite <- app_assoc. reflexivity.
Qed.

Lemma li_rest_over {C} vs : forall (p q : list C), (length q < length vs)%nat ->
  li_rest true (mkLI (p ++ q) (Zlen p) (Zlen p)) vs = (p ++ firstn (length q) vs, Throw OutOfRangeError).
Proof.
  induction vs as [|v vs IH]; intros p q H; cbn [li_rest length] in *; [lia|].
  unfold li_next; cbn [li_cur li_mem li_pos]. unfold assert_throw.
  destruct q as [|x q].
  - rewrite !app_nil_r. rewrite Z.ltb_irrefl. reflexivity.
  - assert (HL : Zlen p < Zlen (p ++ x :: q)) by (rewrite Zlen_app, Zlen_cons; pose proof (Zlen_nonneg q); lia).
    destruct (Zlen p <? Zlen (p ++ x :: q)) eqn:?; [|lia]. cbn [andb negb bind].
    rewrite raw_store_ok by (pose proof (Zlen_nonneg p); lia). cbn [bind]. rewrite zset_app.
    replace (p ++ v :: q) with ((p ++ [v]) ++ q) by (rewrite <- app_assoc; reflexivity).
    replace (Zlen p + 1) with (Zlen (p ++ [v])) by (rewrite Zlen_app; reflexivity).
    cbn [length] in H. rewrite IH by lia. rewrite <- app_assoc. reflexivity.
Qed.

Lemma comma_init_fits {C} debug dynamic (a : list C) v vs : (length (v :: vs) <= length a)%nat ->
  comma_init debug dynamic a v vs = ((v :: vs) ++ skipn (length (v :: vs)) a, Ok tt).
Proof.
  intros H. destruct a as [|x a]; [cbn in H; lia|]. cbn [length skipn] in *.
  unfold comma_init, li_first, assert_throw. rewrite Zlen_cons. pose proof (Zlen_nonneg a).
  destruct (1 <=? 1 + Zlen a) eqn:?; [|lia]. rewrite orb_true_r, andb_false_r. cbn [bind].
  rewrite raw_store_ok by (rewrite Zlen_cons; lia). cbn [bind].
  change (mkLI (zset (x :: a) 0 v) 1 1) with (mkLI ([v] ++ a) (Zlen [v]) (Zlen [v])).
  rewrite li_rest_spec by lia. reflexivity.
Qed.

Lemma comma_init_too_many {C} dynamic (a : list C) v vs : (1 <= length a)%nat -> (length a < length (v :: vs))%nat ->
  comma_init true dynamic a v vs = (firstn (length a) (v :: vs), Throw OutOfRangeError).
Proof.
  intros H1 H. destruct a as [|x a]; [cbn in H1; lia|]. cbn [length firstn] in *.
  unfold comma_init, li_first, assert_throw. rewrite Zlen_cons. pose proof (Zlen_nonneg a).
  destruct (1 <=? 1 + Zlen a) eqn:?; [|lia]. rewrite orb_true_r, andb_false_r. cbn [bind].
  rewrite raw_store_ok by (rewrite Zlen_cons; lia). cbn [bind].
  change (mkLI (zset (x :: a) 0 v) 1 1) with (mkLI ([v] ++ a) (Zlen [v]) (Zlen [v])).
  rewrite li_rest_over by lia. reflexivity.
Qed.

Lemma comma_init_empty {C} (v : C) vs : comma_init true true [] v vs = ([], Throw OutOfRangeError).
Proof. reflexivity. Qed.
