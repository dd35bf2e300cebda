(** Property theorems for arrays, stencils, guards and comma initialisation (C04-C08). *)
From Verif Require Import Base RingModel RingProofs ArrayModel ArrayProofs.

(** C04: at(i) returns element i or throws, never anything else, in every build. *)
Theorem C04_at_is_exact :
  forall (C : Type) (a : list C) (i : Z), 0 <= i ->
  (i < Zlen a -> exists c, nth_error a (Z.to_nat i) = Some c /\ arr_at a i = Ok c) /\
  (Zlen a <= i -> arr_at a i = Throw OutOfRangeError).
Proof. exact @arr_at_spec. Qed.
Print Assumptions C04_at_is_exact.

(** C04: [] is exact in range in both builds and throws out of range in debug builds. *)
Theorem C04_index_is_exact :
  forall (C : Type) (a : list C) (i : Z), 0 <= i ->
  (i < Zlen a -> forall debug, exists c, nth_error a (Z.to_nat i) = Some c /\ arr_get debug a i = Ok c) /\
  (Zlen a <= i -> arr_get true a i = Throw OutOfRangeError).
Proof. exact @arr_get_spec. Qed.
Print Assumptions C04_index_is_exact.

(** C04: a write changes the addressed element and nothing else. *)
Theorem C04_write_changes_one_element :
  forall (C : Type) (a : list C) (i : Z) (c : C), 0 <= i < Zlen a ->
  forall debug, exists a', arr_set debug a i c = Ok a' /\ arr_set_at a i c = Ok a' /\
    length a' = length a /\ nth_error a' (Z.to_nat i) = Some c /\
    forall j, j <> Z.to_nat i -> nth_error a' j = nth_error a j.
Proof. exact @arr_write_spec. Qed.
Print Assumptions C04_write_changes_one_element.

Theorem C04_write_out_of_range_throws :
  forall (C : Type) (a : list C) (i : Z) (c : C), Zlen a <= i ->
  arr_set_at a i c = Throw OutOfRangeError /\ arr_set true a i c = Throw OutOfRangeError.
Proof. exact @arr_write_out. Qed.
Print Assumptions C04_write_out_of_range_throws.

Example C04_case : arr_at [7; 8; 9] 2 = Ok 9 /\ arr_at [7; 8; 9] 3 = Throw OutOfRangeError /\
  arr_set_at [7; 8; 9] 1 5 = Ok [7; 5; 9].
Proof. repeat split; reflexivity. Qed.

(** C05: programs over any number of array variables (construction, copy, assignment between
    different variables, resize, clear, constant blueprints, destruction, element access) behave as if
    each variable held a list; the storage model never reaches undefined behaviour. *)
Theorem C05_arrays_have_value_semantics_partial :
  forall (A : Type) (debug : bool) (os : list (aop A)) v' rs,
  forallb not_self os = true -> v_run debug [] os = Some (v', rs) ->
  exists s', a_run debug a_init os = Some (s', rs).
Proof. exact @arrays_are_values. Qed.
Print Assumptions C05_arrays_have_value_semantics_partial.

Example C05_case : exists v' rs,
  let os := [ANewSized 2; AWrite 0 0 5; ACopyNew 0; ANew; AAssign 2 0; AWrite 2 0 9; ARead 0 0; ARead 2 0; ARead 1 0] in
  forallb (@not_self Z) os = true /\ v_run true [] os = Some (v', rs) /\
  skipn 6 rs = [OVal (Some 5); OVal (Some 9); OVal (Some 5)].
Proof. do 2 eexists. cbn zeta. split; [reflexivity|]. split; reflexivity. Qed.

(** C05 fails for self assignment. *)
Theorem C05_self_assignment_refuted :
  exists (os : list (aop Z)) v' rs rs', v_run true [] os = Some (v', rs) /\
    (exists s', a_run true a_init os = Some (s', rs')) /\ rs <> rs'.
Proof. exact self_assign_loses. Qed.
Print Assumptions C05_self_assignment_refuted.

(** C06, what holds: indices inside the window address exactly the window's elements.
    Missing: indices outside the window are not reported (see the refutations). *)
Theorem C06_stencil_reads_window_partial :
  forall (C : Type) (a : list C) (b len i : Z), 0 <= b -> b + len <= Zlen a -> 0 <= i < len ->
  forall debug, exists c, nth_error a (Z.to_nat (b + i)) = Some c /\
    sten_get debug a (mkSten b (b + len)) i = Ok c /\
    (0 < b + i -> sten_at a (mkSten b (b + len)) i = Ok c).
Proof. exact @sten_in_window. Qed.
Print Assumptions C06_stencil_reads_window_partial.

Theorem C06_stencil_writes_window_partial :
  forall (C : Type) (a : list C) (b len i : Z) (c : C), 0 <= b -> b + len <= Zlen a -> 0 <= i < len ->
  forall debug, exists a', sten_set debug a (mkSten b (b + len)) i c = Ok a' /\ length a' = length a /\
    nth_error a' (Z.to_nat (b + i)) = Some c /\
    forall j, j <> Z.to_nat (b + i) -> nth_error a' j = nth_error a j.
Proof. exact @sten_write_window. Qed.
Print Assumptions C06_stencil_writes_window_partial.

Theorem C06_stencil_creation_checked_partial :
  forall n start len, 0 <= n < two32 -> 0 <= start < two32 -> 0 <= len < two32 ->
  arr_stencil true n start len =
    if (start <? n) && (start + len <=? n) then Ok (mkSten start (start + len)) else Throw OutOfRangeError.
Proof. exact arr_stencil_debug. Qed.
Print Assumptions C06_stencil_creation_checked_partial.

(** Moving a stencil: the end points must be positions of the array or its end. *)
Theorem C06_resettle_checked_partial : forall n start len, 0 <= start -> 0 <= len ->
  sten_resettle true n start len = (if start + len <=? n then Ok (mkSten start (start + len)) else Throw OutOfRangeError) /\
  sten_resettle false n start len = Ok (mkSten start (start + len)).
Proof.
  intros n start len Hs Hl. split; [|reflexivity]. unfold sten_resettle, sten_ctor, assert_throw. cbn [andb negb].
  destruct (start + len <=? n) eqn:E.
  - replace ((0 <=? start) && (start <=? n)) with true by lia. cbn [negb bind].
    replace (0 <=? start + len) with true by lia. rewrite ?E. reflexivity.
  - destruct ((0 <=? start) && (start <=? n)); [|reflexivity]. cbn [negb bind].
    rewrite ?E, ?andb_false_r. reflexivity.
Qed.
Print Assumptions C06_resettle_checked_partial.

Theorem C06_stencil_at_memory_safe_partial :
  forall (C : Type) (a : list C) (s : stencil) (i : Z), sten_at a s i <> UB.
Proof. exact @sten_at_safe. Qed.
Print Assumptions C06_stencil_at_memory_safe_partial.

Theorem C06_stencil_index_unsafe_only_at_end_partial :
  forall (C : Type) (a : list C) b e i, 0 <= b -> 0 <= i ->
  (sten_get true a (mkSten b e) i = UB <-> b + i = Zlen a) /\
  (Zlen a < b + i -> sten_get true a (mkSten b e) i = Throw OutOfRangeError).
Proof. exact @sten_get_debug. Qed.
Print Assumptions C06_stencil_index_unsafe_only_at_end_partial.

Example C06_case : sten_get true [1; 2; 3; 4] (mkSten 1 3) 1 = Ok 3.
Proof. reflexivity. Qed.

Theorem C06_index_past_end_refuted :
  exists (a : list Z) s, arr_stencil true (Zlen a) 1 2 = Ok s /\ sten_get true a s 2 = UB.
Proof. exact sten_get_past_end. Qed.
Print Assumptions C06_index_past_end_refuted.

Theorem C06_outside_window_unreported_refuted :
  exists (a : list Z) s, arr_stencil true (Zlen a) 0 2 = Ok s /\ sten_size s = 2 /\
    sten_get true a s 2 = Ok 3 /\ sten_at a s 2 = Ok 3.
Proof. exact sten_get_outside_window. Qed.
Print Assumptions C06_outside_window_unreported_refuted.

Theorem C06_at_zero_throws_refuted :
  exists (a : list Z) s, arr_stencil true (Zlen a) 0 2 = Ok s /\ sten_at a s 0 = Throw OutOfRangeError.
Proof. exact sten_at_first_throws. Qed.
Print Assumptions C06_at_zero_throws_refuted.

(** A stencil of a stencil starts where it should; it is checked against the array and not against the first stencil. *)
Theorem C06_substencil_checked_partial : forall n s start len, 0 <= s_b s -> 0 <= start -> 0 <= len ->
  sten_sub true n s start len =
    (if (s_b s + start <? n) && (s_b s + start + len <=? n) then Ok (mkSten (s_b s + start) (s_b s + start + len)) else Throw OutOfRangeError) /\
  sten_sub false n s start len = Ok (mkSten (s_b s + start) (s_b s + start + len)).
Proof.
  intros n s start len Hb Hs Hl. split; [|reflexivity]. unfold sten_sub, sten_ctor, assert_throw. cbn [andb negb].
  destruct (s_b s + start <? n) eqn:E; [|reflexivity]. cbn [negb bind]. destruct (s_b s + start + len <=? n) eqn:F; [|reflexivity]. cbn [negb bind].
  replace ((0 <=? s_b s + start) && (s_b s + start <=? n)) with true by lia. cbn [negb bind]. replace (0 <=? s_b s + start + len) with true by lia. reflexivity.
Qed.
Print Assumptions C06_substencil_checked_partial.
Theorem C06_substencil_escapes_refuted :
  exists (n : Z) s t, arr_stencil true n 0 2 = Ok s /\ sten_sub true n s 1 4 = Ok t /\
    s_e s < s_e t.
Proof. exact sten_sub_escapes. Qed.
Print Assumptions C06_substencil_escapes_refuted.

(** C07: the guard checks report exactly the corrupted side(s). *)
Theorem C07_guards_report_exactly_corruption :
  forall (junk : list Z) (ws : list (Z * Z)),
  (forall w, In w ws -> -4 <= fst w < Zlen junk + 4) ->
  let g := stores (g_new junk) ws in
  (g_underrun g = true <-> exists i b, -4 <= i < 0 /\ last_store ws i = Some b /\ b <> magic) /\
  (g_overrun g = true <-> exists i b, Zlen junk <= i < Zlen junk + 4 /\ last_store ws i = Some b /\ b <> magic) /\
  g_overflow g = g_underrun g || g_overrun g.
Proof. exact guards_exact. Qed.
Print Assumptions C07_guards_report_exactly_corruption.

Theorem C07_in_range_programs_never_reported :
  forall (junk : list Z) (ws : list (Z * Z)), (forall w, In w ws -> 0 <= fst w < Zlen junk) ->
  g_overflow (stores (g_new junk) ws) = false.
Proof. exact guards_silent. Qed.
Print Assumptions C07_in_range_programs_never_reported.

(** Resizing re-arms: what happened to the old block, guards included, is forgotten, and only stores after the
    resize are reported. *)
Theorem C07_resizing_rearms :
  forall (junk junk' : list Z) (before after : list (Z * Z)), (forall w, In w after -> -4 <= fst w < Zlen junk' + 4) ->
  let g := stores (g_resize (stores (g_new junk) before) junk') after in
  (g_overflow g = true <-> exists i b, (-4 <= i < 0 \/ Zlen junk' <= i < Zlen junk' + 4) /\ last_store after i = Some b /\ b <> 0xCC).
Proof.
  intros junk junk' before after H g. destruct (C07_guards_report_exactly_corruption junk' after H) as (U & O & F).
  change (stores (g_new junk') after) with g in *. rewrite F, orb_true_iff, U, O. change magic with 0xCC. split.
  - intros [(i & b & A & B)|(i & b & A & B)]; exists i, b; auto.
  - intros (i & b & [A|A] & B); [left|right]; exists i, b; auto.
Qed.
Print Assumptions C07_resizing_rearms.
Example C07_resize_case : g_overflow (stores (g_new [0; 0]) [(2, 7)]) = true /\
  g_overflow (stores (g_resize (stores (g_new [0; 0]) [(2, 7)]) [1; 2; 3]) [(2, 7)]) = false.
Proof. split; reflexivity. Qed.

Example C07_case : g_overrun (stores (g_new [0; 0]) [(0, 1); (2, 7); (1, 3)]) = true /\
  g_underrun (stores (g_new [0; 0]) [(0, 1); (2, 7); (1, 3)]) = false.
Proof. split; reflexivity. Qed.

(** C08: the listed values land in order, the rest is unchanged. *)
Theorem C08_comma_init_in_order :
  forall (C : Type) debug dynamic (a : list C) v vs, (length (v :: vs) <= length a)%nat ->
  comma_init debug dynamic a v vs = ((v :: vs) ++ skipn (length (v :: vs)) a, Ok tt).
Proof. exact @comma_init_fits. Qed.
Print Assumptions C08_comma_init_in_order.

(** C08: too many values: the array is filled, then a debug build throws; nothing is written outside. *)
Theorem C08_comma_init_bounded :
  forall (C : Type) dynamic (a : list C) v vs,
  (1 <= length a)%nat -> (length a < length (v :: vs))%nat ->
  comma_init true dynamic a v vs = (firstn (length a) (v :: vs), Throw OutOfRangeError).
Proof. exact @comma_init_too_many. Qed.
Print Assumptions C08_comma_init_bounded.

Theorem C08_comma_init_empty_array :
  forall (C : Type) (v : C) vs, comma_init true true [] v vs = ([], Throw OutOfRangeError).
Proof. exact @comma_init_empty. Qed.
Print Assumptions C08_comma_init_empty_array.

Example C08_case : comma_init false true [0; 0; 0; 4] 1 [2; 3] = ([1; 2; 3; 4], Ok tt).
Proof. reflexivity. Qed.

(** What a variable holds, self assignments included: [a = a] keeps the size and forgets every element. *)
Definition w_step {A} (debug : bool) (s : vst A) (o : aop A) : option (vst A * pout A) :=
  match o with
  | AAssign i j =>
      if Nat.eqb i j then
        match v_of s i with Some c => Some (upd i (Some (repeat None (length c))) s, ONone) | None => None end
      else v_step debug s o
  | _ => v_step debug s o
  end.
Fixpoint w_run {A} (debug : bool) (s : vst A) (os : list (aop A)) : option (vst A * list (pout A)) :=
  match os with
  | [] => Some (s, [])
  | o :: os => match w_step debug s o with
               | None => None
               | Some (s', r) => match w_run debug s' os with
                                 | None => None | Some (s'', rs) => Some (s'', r :: rs) end
               end
  end.

Lemma upd_repeat_same {C} (x : C) n k : upd k x (repeat x n) = repeat x n.
Proof. revert k; induction n as [|n IH]; intros [|k]; cbn; congruence. Qed.

Lemma h_copy_self {A} : forall n (h : heap A) k b m, nth_error h b = Some (Some (repeat None m)) ->
  0 <= k -> k + Z.of_nat n <= Z.of_nat m -> h_copy h n k b b = Ok h.
Proof.
  induction n as [|n IH]; intros h k b m Hb Hk Hm; cbn [h_copy]; [reflexivity|].
  unfold h_read. rewrite Hb. rewrite zget_repeat by lia. cbn [bind].
  unfold h_write. rewrite Hb. rewrite zget_repeat by lia. cbn [bind].
  assert (E : upd b (Some (zset (repeat None m) k None)) h = h).
  { rewrite <- (upd_same b (Some (repeat None m)) h Hb) at 2. f_equal. f_equal. unfold zset. destruct (k <? 0) eqn:?; [lia|].
    apply upd_repeat_same. }
  rewrite E. apply (IH h (k + 1) b m); auto; lia.
Qed.

Lemma a_step_self {A} debug (s : ast A) v i c : ARel s v -> v_of v i = Some c ->
  exists s', a_step debug s (AAssign i i) = Some (s', ONone) /\
             ARel s' (upd i (Some (repeat None (length c))) v).
Proof.
  intros HR Ei. destruct (rel_obj s v i c HR Ei) as (o & Ho & Eo & Hn & Hown).
  unfold a_step, a_step_res. rewrite Eo. cbn [bind]. rewrite Hn.
  destruct (Zlen c =? 0) eqn:E0.
  - assert (Hc : c = []) by (destruct c; auto; rewrite Zlen_cons in E0; pose proof (Zlen_nonneg c); lia).
    unfold a_clear. destruct (a_buf o) as [bi|] eqn:Ebi.
    + unfold h_free. rewrite Hown. cbn [bind fst snd]. eexists; split; [reflexivity|].
      eapply rel_put; eauto; [subst c; split; reflexivity|].
      intros j' oj bj Hji Hj Hbj.
      assert (bi <> bj) by (intros ->; apply Hji; eapply (r_sep _ _ HR); eauto).
      rewrite nth_error_upd_neq by assumption. cbn. split; congruence.
    + cbn [bind fst snd]. eexists; split; [reflexivity|].
      eapply rel_put; eauto; [subst c; split; reflexivity|]. cbn. intros; split; congruence.
  - destruct (resize_frame s v i o (Zlen c) HR Ho) as (h & -> & HLh & Hnew & HF).
    cbn [bind fst snd].
    unfold obj_of at 1. cbn [put st_objs]. rewrite nth_error_upd_eq by (eapply nth_error_lt; eauto). cbn [bind].
    unfold obj_of at 1. cbn [put st_objs]. rewrite nth_error_upd_eq by (eapply nth_error_lt; eauto). cbn [bind].
    unfold a_copy. cbn [a_buf a_n put st_heap].
    assert (EL : Z.to_nat (Zlen c) = length c) by (unfold Zlen; lia).
    rewrite EL in *.
    rewrite (h_copy_self (length c) h 0 (length (st_heap s)) (length c) Hnew) by lia.
    cbn [bind]. eexists; split; [reflexivity|].
    change (mkSt h (upd i (Some (mkA (Zlen c) (Some (length (st_heap s))))) (st_objs s)))
      with (put s h i (Some (mkA (Zlen c) (Some (length (st_heap s)))))).
    eapply rel_put; eauto.
    + split; cbn; [rewrite Zlen_repeat; unfold Zlen; lia|exact Hnew].
    + intros j' oj bj Hji Hj Hbj. destruct (HF j' oj bj Hji Hj Hbj) as [H1 H2]. cbn. split; congruence.
Qed.

Lemma a_run_w {A} debug os : forall (s : ast A) v v' rs, ARel s v -> w_run debug v os = Some (v', rs) ->
  exists s', a_run debug s os = Some (s', rs) /\ ARel s' v'.
Proof.
  induction os as [|o os IH]; intros s v v' rs HR Hv; cbn [w_run a_run] in *.
  - injection Hv as <- <-. eauto.
  - destruct (w_step debug v o) as [[v1 r]|] eqn:E1; [|discriminate].
    destruct (w_run debug v1 os) as [[v2 rs2]|] eqn:E2; [|discriminate]. injection Hv as <- <-.
    assert (HS : exists s1, a_step debug s o = Some (s1, r) /\ ARel s1 v1).
    { destruct (not_self o) eqn:En.
      - apply (a_step_rel debug s v o v1 r HR En).
        destruct o; try exact E1. cbn [w_step] in E1. cbn [not_self] in En.
        destruct (Nat.eqb _ _); [discriminate|exact E1].
      - destruct o; try discriminate. cbn [not_self] in En. cbn [w_step] in E1.
        destruct (Nat.eqb_spec i j) as [<-|]; [|discriminate].
        destruct (v_of v i) as [c|] eqn:Ei; [|discriminate]. injection E1 as <- <-.
        apply a_step_self; auto. }
    destruct HS as (s1 & -> & HR1).
    destruct (IH s1 v1 v2 rs2 HR1 E2) as (s2 & -> & HR2). eauto.
Qed.

(** C05 for every program: the outputs are those of independent values, except that assigning a variable to
    itself leaves it as long as it was with every element indeterminate. *)
Theorem C05_self_assignment_exactly : forall A debug (os : list (aop A)) v' rs,
  w_run debug [] os = Some (v', rs) -> exists s', a_run debug a_init os = Some (s', rs).
Proof.
  intros A debug os v' rs H. destruct (a_run_w debug os a_init [] v' rs a_init_rel H) as (s' & E & _). eauto.
Qed.
Example C05_self_assignment_case : forall debug,
  w_run debug [] [ANewSized 2; AWrite 0 0 5; AWrite 0 1 6; ACopyNew 0; AAssign 0 0; ASize 0; ARead 0 1; ARead 1 1]
  = Some ([Some [None; None]; Some [Some 5; Some 6]],
          [ONone; ONone; ONone; ONone; ONone; ONum 2; OVal None; OVal (Some 6)]).
Proof. intros [|]; reflexivity. Qed.
Print Assumptions C05_self_assignment_exactly.
