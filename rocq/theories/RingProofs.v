(** Ring buffers: specifications (plain list queues) and proofs. *)
From Verif Require Import Base RingModel.

(** * Specification of a bounded queue, oldest element first.
    [None] as a cell value = a value nobody wrote. *)
Definition drop_oldest {C} (cap : Z) (s : list C) : list C :=
  if cap <? Zlen s then tl s else s.

(** [spec_step] answers [None] when the caller breaks the documented contract:
    popping an empty queue in a release build or indexing outside the queue. *)
Definition spec_step {A} (debug : bool) (cap : Z) (s : list (option A)) (o : pop A)
  : option (list (option A) * pout A) :=
  match o with
  | PPush x => Some (drop_oldest cap (s ++ [Some x]), ONone)
  | PPop => match s with
            | [] => if debug then Some ([], OExc OutOfRangeError) else None
            | v :: r => Some (r, OVal v)
            end
  | PClear => Some ([], ONone)
  | PFill x => Some (repeat (Some x) (length s), ONone)
  | PGet i => match zget s i with Some v => Some (s, OVal v) | None => None end
  | PSize => Some (s, ONum (Zlen s))
  end.
Fixpoint spec_run {A} (debug : bool) (cap : Z) (s : list (option A)) (os : list (pop A))
  : option (list (option A) * list (pout A)) :=
  match os with
  | [] => Some (s, [])
  | o :: os => match spec_step debug cap s o with
               | None => None
               | Some (s', r) => match spec_run debug cap s' os with
                                 | None => None | Some (s'', rs) => Some (s'', r :: rs) end
               end
  end.

(** * PushAndPop refines it *)
Definition Shape {A} (n : Z) (q : pnp A) : Prop :=
  0 <= n < 2 ^ 30 /\ p_size q = n + 1 /\ Zlen (p_data q) = n + 1 /\
  0 <= p_lead q <= n /\ 0 <= p_foll q <= n.

Definition Rep {A} (n : Z) (q : pnp A) (s : list (option A)) : Prop :=
  Shape n q /\
  Zlen s = (if p_foll q <=? p_lead q then p_lead q - p_foll q else n + 1 - p_foll q + p_lead q) /\
  forall k, 0 <= k < Zlen s ->
    zget (p_data q) (if p_foll q + k <=? n then p_foll q + k else p_foll q + k - (n + 1)) = zget s k.

Lemma umod_ok a s : 0 <= a < two32 -> 0 < s -> umod a s = Ok (a mod s).
Proof.
  intros Ha Hs. unfold umod. destruct (s =? 0) eqn:E; [lia|].
  unfold u32. rewrite (Z.mod_small a) by assumption. reflexivity.
Qed.

Lemma int_op_ok z : int_min <= z <= int_max -> int_op z = Ok z.
Proof. intros H. unfold int_op, in_int. destruct (_ && _) eqn:E; [reflexivity|lia]. Qed.

Lemma arr_get_ok {C} debug (a : list C) i : 0 <= i < Zlen a ->
  exists c, zget a i = Some c /\ arr_get debug a i = Ok c.
Proof. intros H. destruct (zget_some a i H) as [c E]. exists c. unfold arr_get. rewrite E. auto. Qed.

Lemma arr_set_ok {C} debug (a : list C) i c : 0 <= i < Zlen a ->
  arr_set debug a i c = Ok (zset a i c).
Proof. intros H. destruct (zget_some a i H) as [x E]. unfold arr_set. rewrite E. auto. Qed.

Lemma consts : int_min = -2147483648 /\ int_max = 2147483647 /\ two32 = 4294967296.
Proof. repeat split; reflexivity. Qed.

Lemma wrap_inc l n : 0 <= l <= n -> n < int_max ->
  umod (l + 1) (n + 1) = Ok (if l =? n then 0 else l + 1).
Proof.
  intros Hl Hn. destruct consts as (_ & E2 & E3). rewrite umod_ok by lia. f_equal.
  destruct (l =? n) eqn:E.
  - replace l with n by lia. apply Z.mod_same. lia.
  - apply Z.mod_small. lia.
Qed.

Lemma pnp_new_rep {A} debug n : 0 <= n < 2 ^ 30 ->
  exists q, pnp_new (A:=A) debug n = Ok q /\ Rep n q [].
Proof.
  intros Hn. destruct consts as (E1 & E2 & E3). unfold pnp_new, assert_throw.
  assert (Eu : u32 (n + 1) = n + 1) by (unfold u32; apply Z.mod_small; lia).
  rewrite Eu. destruct (0 <? n + 1) eqn:E; [|lia]. rewrite andb_false_r. cbn [bind].
  eexists; split; [reflexivity|].
  unfold Rep, Shape; cbn [p_data p_size p_lead p_foll]. unfold arr_new. rewrite Zlen_repeat. change (Zlen (@nil (option A))) with 0.
  repeat split; lia.
Qed.

Lemma Rep_len {A} n (q : pnp A) s : Rep n q s -> 0 <= Zlen s <= n.
Proof.
  intros ((Hn & Hs & Hd & Hl & Hf) & HL & _).
  destruct (p_foll q <=? p_lead q) eqn:E; lia.
Qed.

Lemma tl_get {C} (s : list C) k : 0 <= k -> zget (tl s) k = zget s (k + 1).
Proof.
  intros Hk. destruct s as [|x s]; simpl tl.
  - rewrite !zget_none; auto; znil; lia.
  - rewrite zget_cons_pos by lia. f_equal. lia.
Qed.

Lemma tl_len {C} (s : list C) : 0 < Zlen s -> Zlen (tl s) = Zlen s - 1.
Proof. destruct s as [|x s]; rewrite ?Zlen_cons; znil; simpl tl; lia. Qed.

Lemma push_rep {A} debug n (q : pnp A) s x : Rep n q s ->
  exists q', pnp_push debug q x = Ok q' /\ Rep n q' (drop_oldest n (s ++ [Some x])).
Proof.
  intros HR. pose proof (Rep_len _ _ _ HR) as Hlen.
  destruct HR as ((Hn & Hs & Hd & Hl & Hf) & HL & HK).
  destruct consts as (E1 & E2 & E3).
  unfold pnp_push. rewrite arr_set_ok by lia. cbn [bind].
  rewrite int_op_ok by lia. cbn [bind].
  rewrite Hs, wrap_inc by lia. cbn [bind].
  assert (HL2 : Zlen (s ++ [Some x]) = Zlen s + 1) by (rewrite Zlen_app; reflexivity).
  destruct ((if p_lead q =? n then 0 else p_lead q + 1) =? p_foll q) eqn:Efull.
  - (* full: the oldest is dropped *)
    rewrite int_op_ok by lia. cbn [bind]. rewrite wrap_inc by lia. cbn [bind].
    eexists; split; [reflexivity|].
    assert (Hfull : Zlen s = n) by (iflia).
    unfold drop_oldest. rewrite HL2. destruct (n <? Zlen s + 1) eqn:En; [|lia].
    unfold Rep, Shape; cbn [p_data p_size p_lead p_foll].
    rewrite Zlen_zset, tl_len, HL2 by lia.
    split; [|split].
    + repeat split; try lia; iflia.
    + iflia.
    + intros k Hk. rewrite tl_get by lia.
      set (j := if _ <=? n then _ else _).
      destruct (Z.eq_dec (k + 1) (Zlen s)) as [Ek|Ek].
      * assert (Ej : j = p_lead q).
        { subst j. iflia. }
        rewrite Ej, zget_zset_eq by lia. rewrite zget_app_r by lia.
        replace (k + 1 - Zlen s) with 0 by lia. reflexivity.
      * rewrite zget_app_l by lia. rewrite <- (HK (k + 1)) by lia.
        assert (Ej : j = if p_foll q + (k + 1) <=? n then p_foll q + (k + 1) else p_foll q + (k + 1) - (n + 1)).
        { subst j. iflia. }
        rewrite <- Ej. apply zget_zset_neq.
        subst j. rewrite Ej. intros Hc.
        iflia.
  - eexists; split; [reflexivity|].
    assert (Hnf : Zlen s < n) by (iflia).
    unfold drop_oldest. rewrite HL2. destruct (n <? Zlen s + 1) eqn:En; [lia|].
    unfold Rep, Shape; cbn [p_data p_size p_lead p_foll].
    rewrite Zlen_zset, HL2.
    split; [|split].
    + repeat split; try lia; iflia.
    + iflia.
    + intros k Hk. set (j := if _ <=? n then _ else _).
      destruct (Z.eq_dec k (Zlen s)) as [Ek|Ek].
      * assert (Ej : j = p_lead q).
        { subst j. iflia. }
        rewrite Ej, zget_zset_eq by lia. rewrite zget_app_r by lia.
        replace (k - Zlen s) with 0 by lia. reflexivity.
      * rewrite zget_app_l by lia. rewrite <- (HK k) by lia. fold j.
        apply zget_zset_neq. subst j.
        iflia.
Qed.

Lemma rep_empty_iff {A} n (q : pnp A) s : Rep n q s -> (p_foll q =? p_lead q) = match s with [] => true | _ => false end.
Proof.
  intros ((Hn & Hs & Hd & Hl & Hf) & HL & HK).
  destruct s as [|v s].
  - znil. iflia.
  - rewrite Zlen_cons in HL. pose proof (Zlen_nonneg s). iflia.
Qed.

Lemma pop_rep {A} debug n (q : pnp A) v s : Rep n q (v :: s) ->
  exists q', pnp_pop debug q = Ok (v, q') /\ Rep n q' s.
Proof.
  intros HR. pose proof (rep_empty_iff _ _ _ HR) as Hem. pose proof (Rep_len _ _ _ HR) as Hlen.
  destruct HR as ((Hn & Hs & Hd & Hl & Hf) & HL & HK).
  destruct consts as (E1 & E2 & E3). pose proof (Zlen_nonneg s) as Hs0.
  rewrite Zlen_cons in *.
  unfold pnp_pop, assert_throw. rewrite Hem. cbn [negb]. rewrite andb_false_r. cbn [bind].
  assert (Hv : zget (p_data q) (p_foll q) = Some v).
  { specialize (HK 0). rewrite zget_cons_0 in HK. rewrite Z.add_0_r in HK.
    destruct (p_foll q <=? n) eqn:?; [apply HK; lia|lia]. }
  unfold arr_get. rewrite Hv. cbn [bind]. rewrite int_op_ok by lia. cbn [bind].
  rewrite Hs, wrap_inc by lia. cbn [bind]. eexists; split; [reflexivity|].
  unfold Rep, Shape; cbn [p_data p_size p_lead p_foll].
  split; [|split].
  - repeat split; try lia; iflia.
  - iflia.
  - intros k Hk. specialize (HK (k + 1)). rewrite zget_cons_pos in HK by lia.
    replace (k + 1 - 1) with k in HK by lia. rewrite <- HK by lia. f_equal.
    iflia.
Qed.

Lemma get_rep {A} debug n (q : pnp A) s i v : Rep n q s -> zget s i = Some v ->
  pnp_get debug q i = Ok v.
Proof.
  intros HR Hv. pose proof (Rep_len _ _ _ HR) as Hlen. pose proof (zget_inv _ _ _ Hv) as Hi.
  destruct HR as ((Hn & Hs & Hd & Hl & Hf) & HL & HK).
  destruct consts as (E1 & E2 & E3).
  unfold pnp_get.
  rewrite int_op_ok by lia. cbn [bind]. rewrite Hs, umod_ok by lia. cbn [bind].
  unfold arr_get.
  replace ((p_foll q + i) mod (n + 1)) with
    (if p_foll q + i <=? n then p_foll q + i else p_foll q + i - (n + 1)).
  - rewrite HK by lia. rewrite Hv. reflexivity.
  - rewrite mod_small_or by lia.
    iflia.
Qed.

Lemma size_rep {A} n (q : pnp A) s : Rep n q s -> pnp_size q = Zlen s.
Proof.
  intros ((Hn & Hs & Hd & Hl & Hf) & HL & HK). unfold pnp_size.
  rewrite HL. destruct consts as (E1 & E2 & E3).
  destruct (p_foll q <? p_lead q) eqn:?, (p_lead q <? p_foll q) eqn:?; try iflia.
  unfold u32. rewrite Z.mod_small by lia. iflia.
Qed.

Lemma step_rep {A} debug n (q : pnp A) s o s' r :
  Rep n q s -> spec_step debug n s o = Some (s', r) ->
  exists q', pnp_step debug q o = Some (q', r) /\ Rep n q' s'.
Proof.
  intros HR Hsp. destruct o as [x| | |x|i| ]; cbn [spec_step pnp_step] in *.
  - injection Hsp as <- <-. destruct (push_rep debug n q s x HR) as (q' & -> & HR'). eauto.
  - destruct s as [|v s].
    + destruct debug; [|discriminate]. injection Hsp as <- <-.
      unfold pnp_pop, assert_throw. rewrite (rep_empty_iff _ _ _ HR). cbn. eauto.
    + injection Hsp as <- <-. destruct (pop_rep debug n q v s HR) as (q' & -> & HR'). eauto.
  - injection Hsp as <- <-. exists (pnp_clear q). split; [reflexivity|].
    destruct HR as ((Hn & Hs & Hd & Hl & Hf) & _). unfold Rep, Shape, pnp_clear; cbn [p_data p_size p_lead p_foll].
    znil. repeat split; lia.
  - injection Hsp as <- <-. exists (pnp_fill q x). split; [reflexivity|].
    destruct HR as ((Hn & Hs & Hd & Hl & Hf) & HL & HK).
    unfold Rep, Shape, pnp_fill; cbn [p_data p_size p_lead p_foll]. rewrite !Zlen_repeat.
    change (Z.of_nat (length (p_data q))) with (Zlen (p_data q)).
    change (Z.of_nat (length s)) with (Zlen s).
    split; [repeat split; lia|]. split; [exact HL|]. intros k Hk.
    rewrite !zget_repeat; [reflexivity| |]; unfold Zlen in *; iflia.
  - destruct (zget s i) as [v|] eqn:Hv; [|discriminate]. injection Hsp as <- <-.
    rewrite (get_rep debug n q s i v HR Hv). eauto.
  - injection Hsp as <- <-. rewrite (size_rep n q s HR). eauto.
Qed.

Lemma run_rep {A} debug n os : forall (q : pnp A) s s' rs,
  Rep n q s -> spec_run debug n s os = Some (s', rs) ->
  exists q', pnp_run debug q os = Some (q', rs) /\ Rep n q' s'.
Proof.
  induction os as [|o os IH]; intros q s s' rs HR Hsp; cbn [spec_run pnp_run] in *.
  - injection Hsp as <- <-. eauto.
  - destruct (spec_step debug n s o) as [[s1 r]|] eqn:E1; [|discriminate].
    destruct (spec_run debug n s1 os) as [[s2 rs2]|] eqn:E2; [|discriminate].
    injection Hsp as <- <-.
    destruct (step_rep debug n q s o s1 r HR E1) as (q1 & -> & HR1).
    destruct (IH q1 s1 s2 rs2 HR1 E2) as (q2 & -> & HR2). eauto.
Qed.

(** Reading the whole buffer through size() and []: what a client sees. *)
Definition pnp_contents {A} (debug : bool) (q : pnp A) : list (res (option A)) :=
  map (fun i => pnp_get debug q (Z.of_nat i)) (seq 0 (Z.to_nat (pnp_size q))).

Lemma contents_rep {A} debug n (q : pnp A) s : Rep n q s -> pnp_contents debug q = map Ok s.
Proof.
  intros HR. unfold pnp_contents. rewrite (size_rep n q s HR). unfold Zlen. rewrite Nat2Z.id.
  apply list_ext; [rewrite !Zlen_map; unfold Zlen; rewrite seq_length; reflexivity|].
  intros i Hi. rewrite Zlen_map in Hi. unfold Zlen in Hi. rewrite seq_length in Hi.
  rewrite !zget_map. destruct (zget_some s i) as [v Hv]; [unfold Zlen; lia|].
  rewrite Hv. unfold zget at 1. destruct (i <? 0) eqn:E; [lia|].
  rewrite nth_error_seq_some by lia. cbn [option_map]. f_equal.
  apply (get_rep debug n q s). exact HR. rewrite <- Hv. f_equal. lia.
Qed.

Lemma pnp_refines {A} debug n (os : list (pop A)) s' rs :
  0 <= n < 2 ^ 30 ->
  spec_run debug n [] os = Some (s', rs) ->
  exists q0 q', pnp_new debug n = Ok q0 /\ pnp_run debug q0 os = Some (q', rs) /\
    pnp_contents debug q' = map Ok s' /\ Zlen s' <= n.
Proof.
  intros Hn Hsp. destruct (pnp_new_rep (A:=A) debug n Hn) as (q0 & E0 & HR0).
  destruct (run_rep debug n os q0 [] s' rs HR0 Hsp) as (q' & E & HR').
  exists q0, q'. repeat split; auto; [eapply contents_rep; eauto|].
  pose proof (Rep_len _ _ _ HR'). lia.
Qed.

(** * Memory safety for every history, in both builds *)
Definition get_ok {A} (o : pop A) : bool :=
  match o with PGet i => (0 <=? i) && (i <? 2 ^ 30) | _ => true end.

Lemma step_shape {A} debug n (q : pnp A) o :
  Shape n q -> get_ok o = true ->
  exists q' r, pnp_step debug q o = Some (q', r) /\ Shape n q'.
Proof.
  intros HS Hg. destruct consts as (E1 & E2 & E3).
  destruct HS as (Hn & Hs & Hd & Hl & Hf).
  destruct o as [x| | |x|i| ]; cbn [pnp_step get_ok] in *.
  - unfold pnp_push. rewrite arr_set_ok by lia. cbn [bind]. rewrite int_op_ok by lia. cbn [bind].
    rewrite Hs, wrap_inc by lia. cbn [bind].
    destruct ((if p_lead q =? n then 0 else p_lead q + 1) =? p_foll q).
    + rewrite int_op_ok by lia. cbn [bind]. rewrite wrap_inc by lia. cbn [bind].
      do 2 eexists; split; [reflexivity|]. unfold Shape; cbn [p_data p_size p_lead p_foll].
      rewrite Zlen_zset. repeat split; iflia.
    + do 2 eexists; split; [reflexivity|]. unfold Shape; cbn [p_data p_size p_lead p_foll].
      rewrite Zlen_zset. repeat split; iflia.
  - unfold pnp_pop, assert_throw. destruct (debug && _).
    + cbn [bind]. do 2 eexists; split; [reflexivity|]. repeat split; auto; lia.
    + cbn [bind]. destruct (arr_get_ok debug (p_data q) (p_foll q)) as (c & _ & ->); [lia|].
      cbn [bind]. rewrite int_op_ok by lia. cbn [bind]. rewrite Hs, wrap_inc by lia. cbn [bind].
      do 2 eexists; split; [reflexivity|]. unfold Shape; cbn [p_data p_size p_lead p_foll].
      repeat split; iflia.
  - do 2 eexists; split; [reflexivity|]. unfold Shape, pnp_clear; cbn [p_data p_size p_lead p_foll].
    repeat split; lia.
  - do 2 eexists; split; [reflexivity|]. unfold Shape, pnp_fill; cbn [p_data p_size p_lead p_foll].
    rewrite Zlen_repeat. unfold Zlen in Hd. repeat split; lia.
  - unfold pnp_get. rewrite int_op_ok by lia. cbn [bind]. rewrite Hs, umod_ok by lia. cbn [bind].
    destruct (arr_get_ok debug (p_data q) ((p_foll q + i) mod (n + 1))) as (c & _ & ->).
    { rewrite Hd. apply Z.mod_pos_bound. lia. }
    do 2 eexists; split; [reflexivity|]. repeat split; auto; lia.
  - do 2 eexists; split; [reflexivity|]. repeat split; auto; lia.
Qed.

Lemma run_shape {A} debug n os : forall (q : pnp A),
  Shape n q -> forallb get_ok os = true -> pnp_run debug q os <> None.
Proof.
  induction os as [|o os IH]; intros q HS Hg; cbn [pnp_run forallb] in *; [discriminate|].
  apply andb_true_iff in Hg as [Hg1 Hg2].
  destruct (step_shape debug n q o HS Hg1) as (q' & r & -> & HS').
  specialize (IH q' HS' Hg2). destruct (pnp_run debug q' os) as [[]|]; congruence.
Qed.

Lemma pnp_memory_safe {A} debug n (os : list (pop A)) :
  0 <= n < 2 ^ 30 -> forallb get_ok os = true ->
  exists q0, pnp_new debug n = Ok q0 /\ pnp_run debug q0 os <> None.
Proof.
  intros Hn Hg. destruct (pnp_new_rep (A:=A) debug n Hn) as (q0 & E0 & HR0 & _).
  exists q0. split; [exact E0|]. eapply run_shape; eauto.
Qed.

(** * FiFo: the visible window is the last [n] values *)
Definition FRep {A} (n : Z) (q : fifo A) (w : list (option A)) : Prop :=
  1 <= n < 2 ^ 31 /\ f_size q = n /\ Zlen (f_data q) = n /\ 0 <= f_run q < n /\ Zlen w = n /\
  forall k, 0 <= k < n ->
    zget (f_data q) (if f_run q + k <? n then f_run q + k else f_run q + k - n) = zget w k.

Lemma fifo_push_rep {A} debug n (q : fifo A) w x : FRep n q w ->
  exists q', fifo_push debug q x = Ok q' /\ FRep n q' (tl (w ++ [Some x])).
Proof.
  intros (Hn & Hs & Hd & Hr & Hw & HK). destruct consts as (E1 & E2 & E3).
  unfold fifo_push. rewrite arr_set_ok by lia. cbn [bind]. rewrite Hs, umod_ok by lia. cbn [bind].
  rewrite mod_small_or by lia.
  eexists; split; [reflexivity|]. unfold FRep; cbn [f_data f_size f_run].
  assert (HL : Zlen (w ++ [Some x]) = n + 1) by (rewrite Zlen_app, Hw; reflexivity).
  rewrite Zlen_zset, tl_len by lia.
  split; [lia|]. split; [lia|]. split; [lia|]. split; [iflia|]. split; [lia|].
  intros k Hk. rewrite tl_get by lia.
  destruct (Z.eq_dec (k + 1) n) as [Ek|Ek].
  - rewrite zget_app_r by lia. replace (k + 1 - Zlen w) with 0 by lia. cbn.
    replace (if _ <? n then _ else _) with (f_run q) by iflia.
    apply zget_zset_eq. lia.
  - rewrite zget_app_l by lia. rewrite <- (HK (k + 1)) by lia.
    rewrite zget_zset_neq by iflia. f_equal. iflia.
Qed.

Lemma skipn_S_tl {C} n (l : list C) : skipn (S n) l = tl (skipn n l).
Proof. revert l; induction n as [|n IH]; intros [|x l]; try reflexivity. apply (IH l). Qed.

Lemma tl_app {C} (l k : list C) : l <> [] -> tl (l ++ k) = tl l ++ k.
Proof. destruct l; [congruence|reflexivity]. Qed.

Lemma fifo_pushes_rep {A} debug n xs : forall (q : fifo A) w, FRep n q w ->
  exists q', fifo_pushes debug q xs = Ok q' /\
    FRep n q' (skipn (length xs) (w ++ map Some xs)).
Proof.
  induction xs as [|x xs IH]; intros q w HR; cbn [fifo_pushes length map].
  - exists q. rewrite app_nil_r. auto.
  - destruct (fifo_push_rep debug n q w x HR) as (q1 & -> & HR1). cbn [bind].
    destruct (IH q1 _ HR1) as (q2 & E2 & HR2). exists q2. split; [exact E2|].
    assert (Hw : w <> []).
    { destruct HR as (Hn & _ & _ & _ & Hw & _). intros ->. znil. lia. }
    rewrite tl_app in HR2 by exact Hw.
    replace (skipn (S (length xs)) (w ++ Some x :: map Some xs))
      with (skipn (length xs) ((tl w ++ [Some x]) ++ map Some xs)); [exact HR2|].
    destruct w as [|w0 w]; [congruence|]. cbn [tl app skipn]. rewrite <- app_assoc. reflexivity.
Qed.

Lemma fifo_get_rep {A} debug n (q : fifo A) w i : FRep n q w -> 0 <= i < n ->
  exists v, zget w i = Some v /\ fifo_get debug q i = Ok v.
Proof.
  intros (Hn & Hs & Hd & Hr & Hw & HK) Hi. destruct consts as (E1 & E2 & E3).
  unfold fifo_get. rewrite Hs, umod_ok by lia. cbn [bind]. rewrite mod_small_or by lia.
  destruct (zget_some w i) as [v Hv]; [lia|]. exists v. split; [exact Hv|].
  unfold arr_get. rewrite HK, Hv by lia. reflexivity.
Qed.

Lemma fifo_new_fill_rep {A} n (v : A) : 1 <= n < 2 ^ 31 ->
  FRep n (fifo_new_fill n v) (repeat (Some v) (Z.to_nat n)).
Proof.
  intros Hn. unfold FRep, fifo_new_fill; cbn [f_data f_size f_run]. rewrite Zlen_repeat.
  split; [lia|]. split; [lia|]. split; [lia|]. split; [lia|]. split; [lia|].
  intros k Hk. rewrite !zget_repeat; auto; iflia.
Qed.

Lemma fifo_blank_rep {A} n r : 1 <= n < 2 ^ 31 -> 0 <= r < n ->
  FRep n (mkFifo (arr_new n) n r : fifo A) (repeat None (Z.to_nat n)).
Proof.
  intros Hn Hr. unfold FRep, arr_new; cbn [f_data f_size f_run]. rewrite Zlen_repeat.
  split; [lia|]. split; [lia|]. split; [lia|]. split; [lia|]. split; [lia|].
  intros k Hk. rewrite !zget_repeat; auto; iflia.
Qed.

(** [last_n n l]: the last [n] elements of [l], oldest first. *)
Definition last_n {C} (n : Z) (l : list C) : list C := skipn (length l - Z.to_nat n) l.

Lemma last_n_skip {C} n (w xs : list C) : Zlen w = n ->
  skipn (length xs) (w ++ xs) = last_n n (w ++ xs).
Proof. intros H. unfold last_n, Zlen in *. rewrite app_length. f_equal. lia. Qed.

Lemma fifo_window {A} debug n (v : A) (xs : list A) : 1 <= n < 2 ^ 31 ->
  exists q, fifo_pushes debug (fifo_new_fill n v) xs = Ok q /\
    forall i, 0 <= i < n ->
      exists c, fifo_get debug q i = Ok c /\
        zget (last_n n (repeat (Some v) (Z.to_nat n) ++ map Some xs)) i = Some c.
Proof.
  intros Hn. destruct (fifo_pushes_rep debug n xs _ _ (fifo_new_fill_rep n v Hn)) as (q & E & HR).
  exists q. split; [exact E|]. intros i Hi.
  replace (length xs) with (length (map (@Some A) xs)) in HR by apply map_length.
  rewrite (last_n_skip n) in HR by (rewrite Zlen_repeat; lia).
  destruct (fifo_get_rep debug n q _ i HR Hi) as (c & Hc & Hg). exists c. auto.
Qed.

(** The same from any state: what was exposed before, then the pushes. *)
Lemma fifo_window_rep {A} debug n (q : fifo A) w (xs : list A) : FRep n q w ->
  exists q', fifo_pushes debug q xs = Ok q' /\
    forall i, 0 <= i < n -> exists c, fifo_get debug q' i = Ok c /\ zget (last_n n (w ++ map Some xs)) i = Some c.
Proof.
  intros HR0. destruct (fifo_pushes_rep debug n xs q w HR0) as (q' & E & HR). exists q'. split; [exact E|]. intros i Hi.
  replace (length xs) with (length (map (@Some A) xs)) in HR by apply map_length.
  rewrite (last_n_skip n) in HR by (destruct HR0 as (_ & _ & _ & _ & Hw & _); exact Hw).
  destruct (fifo_get_rep debug n q' _ i HR Hi) as (c & Hc & Hg). exists c. auto.
Qed.
Lemma fifo_fill_rep {A} n (q : fifo A) w x : FRep n q w -> FRep n (fifo_fill q x) (repeat (Some x) (Z.to_nat n)).
Proof.
  intros (Hn & Hs & Hd & Hr & Hw & HK). unfold FRep, fifo_fill; cbn [f_data f_size f_run]. rewrite !Zlen_repeat.
  unfold Zlen in Hd. split; [lia|]. split; [lia|]. split; [lia|]. split; [lia|]. split; [lia|].
  intros k Hk. rewrite !zget_repeat; auto; iflia.
Qed.

(** A full turn of pushes leaves nothing of the earlier contents. *)
Lemma fifo_full_turn {A} debug n (v : A) (xs : list A) : 1 <= n < 2 ^ 31 -> n <= Zlen xs ->
  exists q, fifo_pushes debug (fifo_new_fill n v) xs = Ok q /\
    forall i, 0 <= i < n ->
      exists x, zget xs (Zlen xs - n + i) = Some x /\ fifo_get debug q i = Ok (Some x).
Proof.
  intros Hn Hx. destruct (fifo_window debug n v xs Hn) as (q & E & H).
  exists q. split; [exact E|]. intros i Hi. destruct (H i Hi) as (c & Hg & Hc).
  destruct (zget_some xs (Zlen xs - n + i)) as [x Ex]; [lia|]. exists x. split; [exact Ex|].
  rewrite Hg. f_equal.
  assert (Hs : forall (C:Type) k (l : list C) j, 0 <= j -> zget (skipn k l) j = zget l (Z.of_nat k + j)).
  { intros C k. induction k as [|k IH]; intros l j Hj; [reflexivity|].
    destruct l as [|a l]; [cbn [skipn]; rewrite !zget_none; auto; znil; lia|].
    cbn [skipn]. rewrite IH by lia. rewrite zget_cons_pos by lia. f_equal. lia. }
  unfold last_n in Hc. rewrite Hs in Hc by lia.
  rewrite zget_app_r in Hc by (rewrite Zlen_repeat, app_length, repeat_length, map_length; unfold Zlen in *; lia).
  rewrite Zlen_repeat, app_length, repeat_length, map_length in Hc.
  rewrite zget_map in Hc.
  replace (Z.of_nat (Z.to_nat n + length xs - Z.to_nat n) + i - Z.of_nat (Z.to_nat n)) with (Zlen xs - n + i) in Hc
    by (unfold Zlen; lia).
  rewrite Ex in Hc. cbn in Hc. congruence.
Qed.

(** * resize *)

(** The safe uses: [clear] straight after [resize] gives a fresh buffer of the new capacity... *)
Lemma pnp_resize_clear {A} debug n m (q : pnp A) (s : list (option A)) :
  Rep n q s -> 0 <= m < 2 ^ 30 ->
  exists q', pnp_resize debug q m = Ok q' /\ Rep m (pnp_clear q') [].
Proof.
  intros _ Hm. destruct consts as (E1 & E2 & E3). unfold pnp_resize, assert_throw.
  assert (Eu : u32 (m + 1) = m + 1) by (unfold u32; apply Z.mod_small; lia).
  rewrite Eu. destruct (0 <? m + 1) eqn:E; [|lia]. rewrite andb_false_r. cbn [bind].
  eexists; split; [reflexivity|].
  unfold Rep, Shape, pnp_clear, arr_new; cbn [p_data p_size p_lead p_foll]. rewrite Zlen_repeat. znil.
  repeat split; lia.
Qed.

Lemma pnp_resize_clear_run {A} debug n m (os : list (pop A)) (os2 : list (pop A)) s rs s2 rs2 :
  0 <= n < 2 ^ 30 -> 0 <= m < 2 ^ 30 ->
  spec_run debug n [] os = Some (s, rs) -> spec_run debug m [] os2 = Some (s2, rs2) ->
  exists q0 q q1 q2, pnp_new debug n = Ok q0 /\ pnp_run debug q0 os = Some (q, rs) /\
    pnp_resize debug q m = Ok q1 /\ pnp_run debug (pnp_clear q1) os2 = Some (q2, rs2).
Proof.
  intros Hn Hm H1 H2. destruct (pnp_new_rep (A:=A) debug n Hn) as (q0 & E0 & HR0).
  destruct (run_rep debug n os q0 [] s rs HR0 H1) as (q & E & HR).
  destruct (pnp_resize_clear debug n m q s HR Hm) as (q1 & Eq1 & HR1).
  destruct (run_rep debug m os2 _ [] s2 rs2 HR1 H2) as (q2 & E2 & _).
  exists q0, q, q1, q2. auto.
Qed.

(** ... and growing a FiFo keeps it inside its storage. *)
Lemma fifo_grow {A} debug n m (v : A) (xs ys : list A) :
  1 <= n -> n <= m < 2 ^ 31 ->
  exists q q1 q2, fifo_pushes debug (fifo_new_fill n v) xs = Ok q /\
    fifo_resize debug q m = Ok q1 /\ fifo_pushes debug q1 ys = Ok q2 /\
    forall i, 0 <= i < m ->
      exists c, fifo_get debug q2 i = Ok c /\
        zget (last_n m (repeat None (Z.to_nat m) ++ map Some ys)) i = Some c.
Proof.
  intros Hn Hm. assert (Hn' : 1 <= n < 2 ^ 31) by lia.
  destruct (fifo_pushes_rep debug n xs _ _ (fifo_new_fill_rep n v Hn')) as (q & E & HR).
  destruct HR as (_ & Hs & Hd & Hr & _).
  assert (HR1 : FRep m (mkFifo (arr_new m) m (f_run q)) (repeat (@None A) (Z.to_nat m)))
    by (apply fifo_blank_rep; lia).
  destruct (fifo_pushes_rep debug m ys _ _ HR1) as (q2 & E2 & HR2).
  exists q. eexists. exists q2. split; [exact E|]. split.
  { unfold fifo_resize, assert_throw. destruct (0 <? m) eqn:?; [|lia]. rewrite andb_false_r. reflexivity. }
  split; [exact E2|]. intros i Hi.
  replace (length ys) with (length (map (@Some A) ys)) in HR2 by apply map_length.
  rewrite (last_n_skip m) in HR2 by (rewrite Zlen_repeat; lia).
  destruct (fifo_get_rep debug m q2 _ i HR2 Hi) as (c & Hc & Hg). eauto.
Qed.

(** Witnesses that a plain resize after use breaks the buffers. *)
Lemma pnp_resize_bad :
  exists (n m : Z) (os : list (pop Z)) q0 q q1,
    1 <= m /\ pnp_new false n = Ok q0 /\
    (exists rs, pnp_run false q0 os = Some (q, rs)) /\
    pnp_resize false q m = Ok q1 /\ pnp_push false q1 7 = UB.
Proof.
  exists 5, 1, [PPush 1; PPush 2; PPush 3]. do 3 eexists.
  split; [lia|]. split; [reflexivity|]. split; [eexists; vm_compute; reflexivity|].
  split; reflexivity.
Qed.

Lemma pnp_resize_stale :
  exists (n m : Z) (os : list (pop Z)) q0 q q1,
    n <= m /\ pnp_new true n = Ok q0 /\
    (exists rs, pnp_run true q0 os = Some (q, rs)) /\
    pnp_resize true q m = Ok q1 /\ pnp_size q1 = 1 /\ pnp_get true q1 0 = Ok None.
Proof.
  exists 5, 9, [PPush 1]. do 3 eexists.
  split; [lia|]. split; [reflexivity|]. split; [eexists; vm_compute; reflexivity|].
  repeat split; reflexivity.
Qed.

Lemma fifo_resize_bad :
  exists (n m v : Z) (xs : list Z) q q1,
    1 <= m /\ fifo_pushes false (fifo_new_fill n v) xs = Ok q /\
    fifo_resize false q m = Ok q1 /\ fifo_push false q1 7 = UB.
Proof.
  exists 5, 2, 0, [1; 2; 3]. do 2 eexists. split; [lia|]. repeat split; reflexivity.
Qed.

(** operator()(other): copying between buffers of the same capacity gives the other's contents. *)
Lemma copy_cells_spec {C} debug : forall n i (dst src : list C),
  0 <= i -> i + Z.of_nat n <= Zlen dst -> i + Z.of_nat n <= Zlen src ->
  exists d, copy_cells debug n i dst src = Ok d /\ Zlen d = Zlen dst /\
    forall k, zget d k = if (i <=? k) && (k <? i + Z.of_nat n) then zget src k else zget dst k.
Proof.
  induction n as [|n IH]; intros i dst src Hi H1 H2; cbn [copy_cells].
  - exists dst. repeat split; auto. intros k. destruct (_ && _) eqn:E; [lia|reflexivity].
  - destruct (arr_get_ok debug src i) as (c & Hc & ->); [lia|]. cbn [bind].
    rewrite arr_set_ok by lia. cbn [bind].
    destruct (IH (i + 1) (zset dst i c) src) as (d & Ed & HL & HK);
      [lia|rewrite Zlen_zset; lia|lia|].
    exists d. split; [exact Ed|]. split; [rewrite HL, Zlen_zset; reflexivity|].
    intros k. rewrite HK. destruct (Z.eq_dec i k) as [<-|Hk].
    + destruct ((i + 1 <=? i) && _) eqn:E1; [lia|]. rewrite zget_zset_eq by lia.
      destruct ((i <=? i) && _) eqn:E2; [congruence|lia].
    + rewrite zget_zset_neq by exact Hk.
      destruct ((i + 1 <=? k) && _) eqn:E1; destruct ((i <=? k) && _) eqn:E2; auto; lia.
Qed.

Lemma pnp_copy_rep {A} debug n (q o : pnp A) s t : Rep n q s -> Rep n o t ->
  exists q', pnp_copy_from debug q o = Ok q' /\ Rep n q' t.
Proof.
  intros ((Hn & Hs & Hd & Hl & Hf) & _) ((_ & Hs' & Hd' & Hl' & Hf') & HL & HK).
  unfold pnp_copy_from.
  destruct (copy_cells_spec debug (Z.to_nat (p_size q)) 0 (p_data q) (p_data o)) as (d & -> & HLd & HKd);
    [lia|lia|lia|]. cbn [bind]. eexists; split; [reflexivity|].
  unfold Rep, Shape; cbn [p_data p_size p_lead p_foll]. split; [repeat split; lia|].
  split; [exact HL|]. intros k Hk. rewrite HKd, <- (HK k Hk).
  destruct (_ && _) eqn:E; [reflexivity|]. exfalso. iflia.
Qed.
