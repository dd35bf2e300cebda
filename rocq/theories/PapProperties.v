(** Theorems about iterating over PushAndPop and about its constructors (C266). *)
From Verif Require Import Base RingModel RingProofs PapModel.
Open Scope Z_scope.

(** Iteration goes over the storage: n + 1 cells, in which the elements of the queue stand one after another, possibly going round, from
    some cell on. (What is missing of "iteration visits the elements": the order and the cell that is no element, see below.) *)
Theorem C266_iteration_partial : forall (A : Type) debug n (os : list (pop A)) s rs, 0 <= n < 2 ^ 30 -> spec_run debug n [] os = Some (s, rs) ->
  exists q0 q cells start, pnp_new debug n = Ok q0 /\ pnp_run debug q0 os = Some (q, rs) /\ pnp_iterate debug q = Ok cells /\
    Zlen cells = n + 1 /\ 0 <= start <= n /\ Zlen s <= n /\ forall k, 0 <= k < Zlen s -> zget cells ((start + k) mod (n + 1)) = zget s k.
Proof.
  intros A debug n os s rs N H. destruct (pnp_new_rep (A:=A) debug n N) as (q0 & E0 & R0). destruct (run_rep debug n os q0 [] s rs R0 H) as (q & E & R).
  pose proof (Rep_len _ _ _ R) as L. destruct R as ((_ & S1 & S2 & S3 & S4) & S5 & S6).
  exists q0, q, (p_data q), (p_foll q). split; [exact E0|]. split; [exact E|]. split.
  { unfold pnp_iterate, assert_throw. destruct (p_data q) as [|c d] eqn:D; [exfalso; cbn in S2; lia|]. cbn [negb]. rewrite andb_false_r. reflexivity. }
  split; [exact S2|]. split; [exact S4|]. split; [lia|]. intros k K. rewrite <- (S6 k K). f_equal.
  destruct (p_foll q + k <=? n) eqn:F; [apply Z.leb_le in F; apply Z.mod_small; lia|]. apply Z.leb_gt in F. symmetry. apply (Z.mod_unique _ _ 1); lia.
Qed.
Print Assumptions C266_iteration_partial.
Example C266_case : spec_run true 3 [] [PPush 5; PPush 6; PPop; PPush 7; PPush 8] = Some ([Some 6; Some 7; Some 8], [ONone; ONone; OVal (Some 5); ONone; ONone]).
Proof. reflexivity. Qed.
(** The elements are not visited in order, nor only they: after 1, 2, 3, 4 a queue for two holds 3 and 4; iteration gives 4, 2, 3. Before the
    queue is full it runs into cells never written. *)
Theorem C266_iteration_refuted :
  (exists q0 q rs, pnp_new true 2 = Ok q0 /\ pnp_run true q0 [PPush 1; PPush 2; PPush 3; PPush 4] = Some (q, rs) /\
    pnp_contents true q = map Ok [Some 3; Some 4] /\ pnp_iterate true q = Ok [Some 4; Some 2; Some 3]) /\
  (exists q0 q rs, pnp_new true 2 = Ok q0 /\ pnp_run true q0 [PPush 1] = Some (q, rs) /\ pnp_iterate true q = Ok [Some 1; None; None]).
Proof. split; do 3 eexists; repeat (split; [reflexivity|]); reflexivity. Qed.
Print Assumptions C266_iteration_refuted.
(** As long as there were only pushes, and no more than there is room for, the elements come first and in order. *)
Theorem C266_pushes_in_order : forall (A : Type) debug n (xs : list A), 0 <= n < 2 ^ 30 -> Zlen xs <= n ->
  exists q0 q rs cells, pnp_new debug n = Ok q0 /\ pnp_run debug q0 (map PPush xs) = Some (q, rs) /\ pnp_iterate debug q = Ok cells /\
    firstn (length xs) cells = map Some xs.
Proof.
  intros A debug n xs N L. 
  assert (G : forall xs (q : pnp A), Shape n q -> p_foll q = 0 -> p_lead q + Zlen xs <= n ->
    exists q' rs, pnp_run debug q (map PPush xs) = Some (q', rs) /\ Shape n q' /\ p_foll q' = 0 /\ p_lead q' = p_lead q + Zlen xs /\
      (forall k, 0 <= k < p_lead q -> zget (p_data q') k = zget (p_data q) k) /\ forall k, 0 <= k < Zlen xs -> zget (p_data q') (p_lead q + k) = zget (map Some xs) k).
  { clear xs L. destruct consts as (E1 & E2 & E3). induction xs as [|x xs IH]; intros q S0 F0 B.
    - exists q, []. cbn [map pnp_run]. change (Zlen (@nil A)) with 0. repeat split; auto; try apply S0; try lia.
    - rewrite Zlen_cons in B. pose proof (Zlen_nonneg xs) as P. pose proof S0 as (_ & Hs & Hd & Hl & Hf).
      cbn [map pnp_run pnp_step]. unfold pnp_push. rewrite arr_set_ok by lia. cbn [bind]. rewrite int_op_ok by lia. cbn [bind]. rewrite Hs, wrap_inc by lia. cbn [bind].
      destruct (p_lead q =? n) eqn:X; [apply Z.eqb_eq in X; lia|]. rewrite F0. destruct (p_lead q + 1 =? 0) eqn:Y; [apply Z.eqb_eq in Y; lia|].
      set (q1 := mkPnp (zset (p_data q) (p_lead q) (Some x)) (n + 1) (p_lead q + 1) 0).
      destruct (IH q1) as (q2 & rs & R1 & R2 & R3 & R4 & R5 & R6).
      { unfold Shape, q1. cbn [p_size p_data p_lead p_foll]. rewrite Zlen_zset. repeat split; lia. } { reflexivity. } { unfold q1. cbn [p_lead]. lia. }
      rewrite R1. do 2 eexists. split; [reflexivity|]. split; [exact R2|]. split; [exact R3|]. unfold q1 in *. cbn [p_lead p_data] in *. rewrite Zlen_cons. split; [lia|]. split.
      + intros k K. rewrite R5 by lia. apply zget_zset_neq. lia.
      + intros k K. destruct (Z.eq_dec k 0) as [->|NK].
        * rewrite Z.add_0_r, R5 by lia. rewrite zget_zset_eq by lia. reflexivity.
        * cbn [map]. rewrite zget_cons_pos by lia. rewrite <- R6 by lia. f_equal. lia. }
  destruct (pnp_new_rep (A:=A) debug n N) as (q0 & E0 & R0). pose proof R0 as (S0 & _).
  assert (Z0 : p_foll q0 = 0 /\ p_lead q0 = 0). { unfold pnp_new in E0. unfold assert_throw in E0. destruct (debug && _); cbn [bind] in E0; [discriminate|]. injection E0 as <-. split; reflexivity. }
  destruct Z0 as [F0 L0]. destruct (G xs q0 S0 F0) as (q & rs & R1 & (_ & _ & D & _ & _) & _ & _ & _ & R6); [lia|].
  exists q0, q, rs, (p_data q). split; [exact E0|]. split; [exact R1|]. split.
  { unfold pnp_iterate, assert_throw. destruct (p_data q) as [|c d]; [exfalso; cbn in D; lia|]. cbn [negb]. rewrite andb_false_r. reflexivity. }
  rewrite L0 in R6. apply list_ext.
  - unfold Zlen in *. rewrite firstn_length, map_length. lia.
  - intros i I. assert (J : 0 <= i < Zlen xs) by (unfold Zlen in *; rewrite firstn_length in I; lia). rewrite <- (R6 i J).
    unfold zget. destruct (i <? 0) eqn:X; [apply Z.ltb_lt in X; lia|]. cbn [Z.add]. rewrite X.
    assert (W : (Z.to_nat i < length xs)%nat) by (unfold Zlen in J; lia). clear -W. revert W. generalize (Z.to_nat i) (length xs) (p_data q). intros a b. revert a.
    induction b as [|b IH]; intros [|a] [|c d] H; cbn; try lia; try reflexivity. apply IH. lia.
Qed.
Print Assumptions C266_pushes_in_order.

(** A queue constructed without storage: it is empty; nothing else works until it is resized, which makes it like one constructed with
    that length. Access is undefined in every build: it divides by zero. *)
Theorem C266_no_storage : forall (A : Type) (x : A) i m, pnp_size (@pnp_default A) = 0 /\ pnp_asize (@pnp_default A) = 0 /\
  pnp_push true pnp_default x = Throw OutOfRangeError /\ pnp_pop true (@pnp_default A) = Throw OutOfRangeError /\ pnp_iterate true (@pnp_default A) = Throw OutOfRangeError /\
  pnp_push false pnp_default x = UB /\ pnp_pop false (@pnp_default A) = UB /\ pnp_iterate false (@pnp_default A) = Ok [] /\
  (forall debug, pnp_get debug (@pnp_default A) i = UB) /\ (forall debug, pnp_resize debug (@pnp_default A) m = pnp_new debug m).
Proof.
  intros A x i m. repeat (split; [reflexivity|]). split; [|reflexivity]. intros debug. unfold pnp_get, pnp_default. cbn [p_foll p_size]. unfold int_op.
  destruct (in_int (0 + i)); reflexivity.
Qed.
Print Assumptions C266_no_storage.
(** Construction with a value puts it into the cells, not into the queue: the queue is empty, with every index reading the value; used as a queue it
    behaves as any new one. *)
Theorem C266_with_value : forall (A : Type) debug n (d : A), 0 <= n < 2 ^ 30 -> exists q, pnp_new_with debug n d = Ok q /\ pnp_size q = 0 /\
  (forall i, 0 <= i < 2 ^ 30 -> pnp_get debug q i = Ok (Some d)) /\
  forall os s rs, spec_run debug n [] os = Some (s, rs) -> exists q', pnp_run debug q os = Some (q', rs) /\ pnp_contents debug q' = map Ok s.
Proof.
  intros A debug n d N. destruct (pnp_new_rep (A:=A) debug n N) as (q0 & E0 & R0). unfold pnp_new_with. rewrite E0. cbn [bind]. eexists. split; [reflexivity|].
  assert (Z0 : p_foll q0 = 0 /\ p_lead q0 = 0). { unfold pnp_new in E0. unfold assert_throw in E0. destruct (debug && _); cbn [bind] in E0; [discriminate|]. injection E0 as <-. split; reflexivity. }
  destruct Z0 as [F0 L0]. destruct R0 as ((_ & S1 & S2 & S3 & S4) & _ & _).
  assert (R : Rep n (pnp_fill q0 d) []).
  { unfold Rep, Shape, pnp_fill. cbn [p_data p_size p_lead p_foll]. rewrite F0, L0. split; [|split; [reflexivity|intros k K; change (Zlen (@nil (option A))) with 0 in K; lia]].
    split; [exact N|]. split; [exact S1|]. split; [unfold Zlen in *; rewrite repeat_length; exact S2|]. lia. }
  split; [exact (size_rep _ _ _ R)|]. split.
  - intros i I. destruct consts as (C1 & C2 & C3). unfold pnp_get, pnp_fill. cbn [p_data p_size p_foll]. rewrite F0. rewrite int_op_ok by lia. cbn [bind]. rewrite umod_ok by lia. cbn [bind].
    pose proof (Z.mod_pos_bound (0 + i) (p_size q0) ltac:(lia)) as B. unfold arr_get. rewrite zget_repeat by (unfold Zlen in S2; lia). reflexivity.
  - intros os s rs H. destruct (run_rep debug n os _ [] s rs R H) as (q' & E & R'). exists q'. split; [exact E|]. exact (contents_rep debug n q' s R').
Qed.
Print Assumptions C266_with_value.
Example C266_case2 : exists q, pnp_new_with true 2 7 = Ok q /\ pnp_run true q [PSize; PGet 0; PPop] = Some (q, [ONum 0; OVal (Some 7); OExc OutOfRangeError]).
Proof. eexists. split; reflexivity. Qed.
(** Outside debug builds taking from an empty queue is not refused: it yields an old or indeterminate value, and the queue then claims to be full. *)
Theorem C266_pop_empty_refuted : forall (A : Type) n, 1 <= n < 2 ^ 30 -> exists q0 q1, pnp_new (A:=A) false n = Ok q0 /\ pnp_pop false q0 = Ok (None, q1) /\ pnp_size q1 = n.
Proof.
  intros A n N. destruct (pnp_new_rep (A:=A) false n ltac:(lia)) as (q0 & E0 & R0). destruct R0 as ((_ & S1 & S2 & S3 & S4) & _ & _). pose proof E0 as E1.
  unfold pnp_new, assert_throw in E1. cbn [andb bind] in E1. injection E1 as <-. cbn [p_size p_data p_lead p_foll] in *. destruct consts as (C1 & C2 & C3).
  do 2 eexists. split; [exact E0|]. unfold pnp_pop, assert_throw. cbn [andb bind p_foll p_data p_size p_lead]. unfold arr_get.
  unfold arr_new in *. rewrite S1 in *. assert (G : zget (repeat (@None A) (Z.to_nat (n + 1))) 0 = Some None) by (apply zget_repeat; lia). rewrite G. cbn [bind]. rewrite int_op_ok by lia. cbn [bind].
  rewrite umod_ok by lia. cbn [bind]. split; [reflexivity|]. unfold pnp_size. cbn [p_foll p_lead p_size]. rewrite (Z.mod_small (0 + 1)) by lia. cbn [Z.add Z.ltb Z.compare].
  unfold u32. rewrite Z.mod_small; lia.
Qed.
Print Assumptions C266_pop_empty_refuted.
