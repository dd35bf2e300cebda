(** Property theorems for the ring buffers (C01, C02, C03). *)
From Verif Require Import Base RingModel RingProofs.

(** C01: every history within the contract gives exactly the outputs of a bounded list queue,
    and the visible contents are the queue. *)
Theorem C01_push_and_pop_is_bounded_queue :
  forall (A : Type) (debug : bool) (n : Z) (os : list (pop A)) s' rs,
  0 <= n < 2 ^ 30 ->
  spec_run debug n [] os = Some (s', rs) ->
  exists q0 q', pnp_new debug n = Ok q0 /\ pnp_run debug q0 os = Some (q', rs) /\
    pnp_contents debug q' = map Ok s' /\ Zlen s' <= n.
Proof. exact @pnp_refines. Qed.
Print Assumptions C01_push_and_pop_is_bounded_queue.

Example C01_case : exists s' rs,
  spec_run false 2 [] [PPush 1; PPush 2; PPush 3; PGet 0; PPop; PSize] = Some (s', rs) /\
  s' = [Some 3] /\ rs = [ONone; ONone; ONone; OVal (Some 2); OVal (Some 2); ONum 1].
Proof. do 2 eexists. split; [reflexivity|]. split; reflexivity. Qed.

(** C01: no history whatsoever (also popping an empty buffer, both builds) leaves the storage. *)
Theorem C01_push_and_pop_memory_safe :
  forall (A : Type) (debug : bool) (n : Z) (os : list (pop A)),
  0 <= n < 2 ^ 30 -> forallb get_ok os = true ->
  exists q0, pnp_new debug n = Ok q0 /\ pnp_run debug q0 os <> None.
Proof. exact @pnp_memory_safe. Qed.
Print Assumptions C01_push_and_pop_memory_safe.

Example C01_safe_case :
  forallb get_ok [PPop; PPush 1; PGet 17; PPop; PPop; PFill 3; PClear; PSize] = true.
Proof. reflexivity. Qed.

(** C01: asize() is always one more than the capacity. *)
Theorem C01_push_and_pop_storage :
  forall (A : Type) (debug : bool) (n : Z) (os : list (pop A)) s' rs,
  0 <= n < 2 ^ 30 -> spec_run debug n [] os = Some (s', rs) ->
  exists q0 q', pnp_new debug n = Ok q0 /\ pnp_run debug q0 os = Some (q', rs) /\ pnp_asize q' = n + 1.
Proof.
  intros A debug n os s' rs Hn H. destruct (@pnp_new_rep A debug n Hn) as (q0 & E0 & HR0).
  destruct (run_rep debug n os q0 [] s' rs HR0 H) as (q' & E' & HR'). exists q0, q'. split; [exact E0|]. split; [exact E'|].
  unfold pnp_asize. destruct HR' as (HS & _). unfold Shape in HS. lia.
Qed.
Print Assumptions C01_push_and_pop_storage.

(** C01: copying one buffer into another of the same capacity reproduces its contents. *)
Theorem C01_push_and_pop_copy :
  forall (A : Type) (debug : bool) (n : Z) (q o : pnp A) s t,
  Rep n q s -> Rep n o t ->
  exists q', pnp_copy_from debug q o = Ok q' /\ Rep n q' t.
Proof. exact @pnp_copy_rep. Qed.
Print Assumptions C01_push_and_pop_copy.

Example C01_copy_case : exists q, pnp_new (A:=Z) true 3 = Ok q /\ Rep 3 q [].
Proof. exact (pnp_new_rep true 3 ltac:(lia)). Qed.

(** C02: index i of a cyclic FIFO is the i-th oldest of the last n values. *)
Theorem C02_fifo_exposes_last_window :
  forall (A : Type) (debug : bool) (n : Z) (v : A) (xs : list A), 1 <= n < 2 ^ 31 ->
  exists q, fifo_pushes debug (fifo_new_fill n v) xs = Ok q /\
    forall i, 0 <= i < n ->
      exists c, fifo_get debug q i = Ok c /\
        zget (last_n n (repeat (Some v) (Z.to_nat n) ++ map Some xs)) i = Some c.
Proof. exact @fifo_window. Qed.
Print Assumptions C02_fifo_exposes_last_window.

Theorem C02_fifo_full_turn :
  forall (A : Type) (debug : bool) (n : Z) (v : A) (xs : list A), 1 <= n < 2 ^ 31 -> n <= Zlen xs ->
  exists q, fifo_pushes debug (fifo_new_fill n v) xs = Ok q /\
    forall i, 0 <= i < n ->
      exists x, zget xs (Zlen xs - n + i) = Some x /\ fifo_get debug q i = Ok (Some x).
Proof. exact @fifo_full_turn. Qed.
Print Assumptions C02_fifo_full_turn.

(** A buffer constructed without a value exposes its (indeterminate) cells, then the pushes; filling replaces every element,
    whatever was pushed before. *)
Theorem C02_fifo_unfilled :
  forall (A : Type) (debug : bool) (n : Z) (xs : list A), 1 <= n < 2 ^ 31 ->
  exists q, fifo_pushes debug (fifo_new n) xs = Ok q /\
    forall i, 0 <= i < n ->
      exists c, fifo_get debug q i = Ok c /\ zget (last_n n (repeat None (Z.to_nat n) ++ map Some xs)) i = Some c.
Proof. intros A debug n xs Hn. apply (fifo_window_rep debug n (fifo_new n)). apply fifo_blank_rep; lia. Qed.
Print Assumptions C02_fifo_unfilled.
Theorem C02_fifo_fill :
  forall (A : Type) (debug : bool) (n : Z) (v x : A) (xs ys : list A), 1 <= n < 2 ^ 31 ->
  exists q q', fifo_pushes debug (fifo_new_fill n v) xs = Ok q /\ fifo_pushes debug (fifo_fill q x) ys = Ok q' /\
    forall i, 0 <= i < n ->
      exists c, fifo_get debug q' i = Ok c /\ zget (last_n n (repeat (Some x) (Z.to_nat n) ++ map Some ys)) i = Some c.
Proof.
  intros A debug n v x xs ys Hn. destruct (fifo_pushes_rep debug n xs _ _ (fifo_new_fill_rep n v Hn)) as (q & E & HR).
  destruct (fifo_window_rep debug n _ _ ys (fifo_fill_rep n q _ x HR)) as (q' & E' & H). exists q, q'. auto.
Qed.
Print Assumptions C02_fifo_fill.

Example C02_case : exists q, fifo_pushes true (fifo_new_fill 3 0) [1; 2; 3; 4] = Ok q /\
  map (fifo_get true q) [0; 1; 2] = [Ok (Some 2); Ok (Some 3); Ok (Some 4)].
Proof. eexists. split; reflexivity. Qed.

(** C03 is false as stated: the cursors survive a resize. *)
Theorem C03_push_and_pop_resize_refuted :
  exists (n m : Z) (os : list (pop Z)) q0 q q1,
    1 <= m /\ pnp_new false n = Ok q0 /\
    (exists rs, pnp_run false q0 os = Some (q, rs)) /\
    pnp_resize false q m = Ok q1 /\ pnp_push false q1 7 = UB.
Proof. exact pnp_resize_bad. Qed.
Print Assumptions C03_push_and_pop_resize_refuted.

Theorem C03_push_and_pop_grow_not_empty_refuted :
  exists (n m : Z) (os : list (pop Z)) q0 q q1,
    n <= m /\ pnp_new true n = Ok q0 /\
    (exists rs, pnp_run true q0 os = Some (q, rs)) /\
    pnp_resize true q m = Ok q1 /\ pnp_size q1 = 1 /\ pnp_get true q1 0 = Ok None.
Proof. exact pnp_resize_stale. Qed.
Print Assumptions C03_push_and_pop_grow_not_empty_refuted.

Theorem C03_fifo_resize_refuted :
  exists (n m v : Z) (xs : list Z) q q1,
    1 <= m /\ fifo_pushes false (fifo_new_fill n v) xs = Ok q /\
    fifo_resize false q m = Ok q1 /\ fifo_push false q1 7 = UB.
Proof. exact fifo_resize_bad. Qed.
Print Assumptions C03_fifo_resize_refuted.

(** C03, the part that holds: resize followed by clear() gives a fresh queue of the new capacity.
    Missing: a resize that is not followed by clear(). *)
Theorem C03_push_and_pop_resize_clear_partial :
  forall (A : Type) debug n m (os os2 : list (pop A)) s rs s2 rs2,
  0 <= n < 2 ^ 30 -> 0 <= m < 2 ^ 30 ->
  spec_run debug n [] os = Some (s, rs) -> spec_run debug m [] os2 = Some (s2, rs2) ->
  exists q0 q q1 q2, pnp_new debug n = Ok q0 /\ pnp_run debug q0 os = Some (q, rs) /\
    pnp_resize debug q m = Ok q1 /\ pnp_run debug (pnp_clear q1) os2 = Some (q2, rs2).
Proof. exact @pnp_resize_clear_run. Qed.
Print Assumptions C03_push_and_pop_resize_clear_partial.

(** C03, the part that holds for FiFo: growing.  Missing: shrinking below the running index. *)
Theorem C03_fifo_grow_partial :
  forall (A : Type) debug n m (v : A) (xs ys : list A),
  1 <= n -> n <= m < 2 ^ 31 ->
  exists q q1 q2, fifo_pushes debug (fifo_new_fill n v) xs = Ok q /\
    fifo_resize debug q m = Ok q1 /\ fifo_pushes debug q1 ys = Ok q2 /\
    forall i, 0 <= i < m ->
      exists c, fifo_get debug q2 i = Ok c /\
        zget (last_n m (repeat None (Z.to_nat m) ++ map Some ys)) i = Some c.
Proof. exact @fifo_grow. Qed.
Print Assumptions C03_fifo_grow_partial.

Example C03_case : exists s rs, spec_run true 4 [] [PPush 1; PPush 2; PPop] = Some (s, rs) /\ s = [Some 2].
Proof. do 2 eexists. split; reflexivity. Qed.
