(** Theorems about the buffers of the converters to character strings (C264). *)
From Verif Require Import Base Numerals ConvModel ConvProofs CBufModel CBufProofs.
Open Scope Z_scope.

(** Programs that do not copy converters and read each string before the next conversion of the same converter (and, if the
    buffer is the converter's own, before its destruction): every text read is the decimal text of the number converted, whatever
    other converters do and however the operations are interleaved. What is missing: programs that copy converters, read NULL or
    convert a number the routine cannot take. *)
Theorem C264_texts_partial : forall l t, a_run ([], []) l = Some t -> exists h, cb_run ch0 l = Ok (h, t).
Proof.
  intros l t H. apply (run_ok l ch0 ([], []) t); [|exact H]. unfold cb_agree. cbn. repeat (split; [reflexivity|]). intros [|i] r R; discriminate.
Qed.
Print Assumptions C264_texts_partial.
Example C264_case : a_run ([], []) [CNew true 250; COver [1; 1; 1; 1]; CConv 0 TInt (-40); CConv 1 TUChar 7; CConv 0 TLong 12; CRead 2; CRead 1; CDel 1; CDel 0; CRead 1] =
  Some [[49; 50]; [55]; [55]] /\
  (exists h, cb_run ch0 [CNew true 5; COver [1; 1; 1; 1]; CConv 0 TInt (-40); CConv 1 TUChar 7; CConv 0 TLong 12; CRead 2; CRead 1; CDel 1; CDel 0; CRead 1] =
    Ok (h, [[49; 50]; [55]; [55]])).
Proof. split; [vm_compute; reflexivity|]. eexists. vm_compute. reflexivity. Qed.

(** Without copies the memory is accounted for: at any moment the blocks in existence are those of the living converters that
    own one and the arrays of the caller. Once all converters are destroyed nothing of theirs is left. *)
Theorem C264_no_leak_partial : forall l h t, cb_run ch0 l = Ok (h, t) -> forallb (fun o => negb (copies o)) l = true ->
  length (filter there (ch_mem h)) = (length (filter owner (ch_cvs h)) + length (filter brings l))%nat.
Proof. intros l h t H C. pose proof (run_count l ch0 h t H C) as U. unfold count in U. cbn in U. lia. Qed.
Print Assumptions C264_no_leak_partial.
Example C264_case2 : exists h, cb_run ch0 [CNew true 5; COver [1; 1]; CNew true 9; CDel 0; CDel 1; CDel 2] = Ok (h, []) /\ ch_mem h = [None; Some [1; 1]; None].
Proof. eexists. split; reflexivity. Qed.

(** A copied converter frees the buffer a second time: two destructions, in either order, are undefined. *)
Theorem C264_copy_refuted : forall size i j, 0 < size -> In (i, j) [(0, 1); (1, 0)]%nat ->
  (exists h, cb_run ch0 [CNew true size; CCopy 0; CDel i] = Ok (h, [])) /\ cb_run ch0 [CNew true size; CCopy 0; CDel i; CDel j] = UB.
Proof.
  intros size i j H I. assert (S0 : store (repeat (-1) (Z.to_nat size)) (size - 1) 0 = Ok (zset (repeat (-1) (Z.to_nat size)) (size - 1) 0)).
  { apply store_ok. unfold Zlen. rewrite repeat_length. lia. }
  cbn [cb_run cb_step]. unfold cb_new. rewrite S0. cbn [bind ch0 ch_mem ch_cvs ch_ptrs app length fst snd].
  destruct I as [E|[E|[]]]; injection E as <- <-; (split; [eexists; reflexivity|reflexivity]).
Qed.
Print Assumptions C264_copy_refuted.
(** ... and while both live, a conversion with one changes the text of the other: "12" becomes "45". *)
Theorem C264_copy_shares_refuted : exists h, cb_run ch0 [CNew true 8; CConv 0 TInt 12; CRead 0; CCopy 0; CConv 1 TInt 345; CRead 0] = Ok (h, [[49; 50]; [52; 53]]).
Proof. eexists. vm_compute. reflexivity. Qed.
Print Assumptions C264_copy_shares_refuted.
(** Assignment leaves the old buffer of the left side without an owner for ever, and the other one with two. *)
Theorem C264_assign_refuted : forall l h t, 
  (exists h2, cb_run ch0 [CNew true 4; CNew true 4; CAssign 0 1; CDel 0] = Ok (h2, []) /\ length (filter there (ch_mem h2)) = 1%nat /\
     cb_run h2 [CDel 1] = UB) /\
  (cb_run ch0 ([CNew true 4; CNew true 4; CAssign 0 1] ++ l) = Ok (h, t) -> nth_error (ch_mem h) 0 <> Some None).
Proof.
  intros l h t. split; [eexists; split; [reflexivity|]; split; reflexivity|].
  assert (G : forall l h h' t, nth_error (ch_mem h) 0 <> Some None -> nth_error (ch_mem h) 0 <> None ->
    (forall i c, nth_error (ch_cvs h) i = Some (Some c) -> cb_blk c <> 0%nat) -> cb_run h l = Ok (h', t) -> nth_error (ch_mem h') 0 <> Some None).
  { clear. induction l as [|o l IH]; intros h h' t A A2 B H; cbn [cb_run] in H; [injection H as <- _; exact A|].
    destruct (cb_step h o) as [[h1 t1]| |] eqn:E; cbn [bind fst snd] in H; try discriminate. destruct (cb_run h1 l) as [[h2 t2]| |] eqn:Q; cbn [bind fst snd] in H; try discriminate.
    injection H as <- _. assert (P : nth_error (ch_mem h1) 0 <> Some None /\ nth_error (ch_mem h1) 0 <> None /\ (forall i c, nth_error (ch_cvs h1) i = Some (Some c) -> cb_blk c <> 0%nat)); [|destruct P as (P1 & P2 & P3); exact (IH h1 h2 t2 P1 P2 P3 Q)].
    assert (LM : (0 < length (ch_mem h))%nat) by (apply nth_error_Some; exact A2).
    assert (AP : forall x, nth_error (ch_mem h ++ [x]) 0 = nth_error (ch_mem h) 0) by (intros x; apply nth_error_app1; exact LM).
    assert (UP : forall b x, b <> 0%nat -> nth_error (upd b x (ch_mem h)) 0 = nth_error (ch_mem h) 0).
    { intros b x N. destruct (ch_mem h) as [|y m]; [destruct b; reflexivity|]. destruct b; [contradiction|reflexivity]. }
    assert (CV : forall b x, (forall c, x = Some c -> cb_blk c <> 0%nat) -> forall i c, nth_error (upd b x (ch_cvs h)) i = Some (Some c) -> cb_blk c <> 0%nat).
    { intros b x N i c I. destruct (Nat.lt_ge_cases b (length (ch_cvs h))) as [L|L].
      - rewrite nth_upd in I by exact L. destruct (Nat.eqb b i); [injection I as ->; now apply N|exact (B _ _ I)].
      - assert (U : upd b x (ch_cvs h) = ch_cvs h). { revert L. generalize (ch_cvs h). clear. intros m. revert b. induction m as [|y m IH]; intros [|b] L; cbn in *; try reflexivity; try lia. f_equal. apply IH. lia. }
        rewrite U in I. exact (B _ _ I). }
    destruct o as [room size|cells|i ty n|k|i|i|i j]; cbn [cb_step] in E.
    - unfold cb_new in E. destruct room; [|discriminate]. destruct (store _ _ _) as [m| |]; cbn [bind] in E; try discriminate. injection E as <- _. cbn [ch_mem ch_cvs]. rewrite AP.
      split; [exact A|]. split; [exact A2|]. intros i c I. apply nth_snoc in I. destruct I as [I|[_ I]]; [exact (B _ _ I)|]. injection I as <-. cbn. lia.
    - injection E as <- _. unfold cb_over. cbn [ch_mem ch_cvs]. rewrite AP.
      split; [exact A|]. split; [exact A2|]. intros i c I. apply nth_snoc in I. destruct I as [I|[_ I]]; [exact (B _ _ I)|]. injection I as <-. cbn. lia.
    - unfold cb_conv in E. destruct (conv_of h i) as [c| |] eqn:C; cbn [bind] in E; try discriminate. destruct (block (ch_mem h) (cb_blk c)) as [m| |]; cbn [bind] in E; try discriminate.
      destruct (conv_cstr _ _ _ _ _) as [r| |]; cbn [bind] in E; try discriminate. injection E as <- _. cbn [ch_mem ch_cvs]. rewrite UP by exact (B _ _ (conv_of_inv _ _ _ C)). now split.
    - destruct (cb_read h k); cbn [bind] in E; try discriminate. injection E as <- _. now split.
    - unfold cb_del in E. destruct (conv_of h i) as [c| |] eqn:C; cbn [bind] in E; try discriminate. destruct (cb_own c).
      + unfold free in E. destruct (block (ch_mem h) (cb_blk c)) as [m| |]; cbn [bind] in E; try discriminate. injection E as <- _. cbn [ch_mem ch_cvs].
        rewrite UP by exact (B _ _ (conv_of_inv _ _ _ C)). split; [exact A|]. split; [exact A2|]. apply CV. discriminate.
      + cbn [bind] in E. injection E as <- _. cbn [ch_mem ch_cvs]. split; [exact A|]. split; [exact A2|]. apply CV. discriminate.
    - unfold cb_copy in E. destruct (conv_of h i) as [c| |] eqn:C; cbn [bind] in E; try discriminate. injection E as <- _. cbn [ch_mem ch_cvs].
      split; [exact A|]. split; [exact A2|]. intros j d I. apply nth_snoc in I. destruct I as [I|[_ I]]; [exact (B _ _ I)|]. injection I as <-. exact (B _ _ (conv_of_inv _ _ _ C)).
    - unfold cb_assign in E. destruct (conv_of h i) as [c0| |]; cbn [bind] in E; try discriminate. destruct (conv_of h j) as [c| |] eqn:C; cbn [bind] in E; try discriminate. injection E as <- _. cbn [ch_mem ch_cvs].
      split; [exact A|]. split; [exact A2|]. apply CV. intros d D. injection D as <-. exact (B _ _ (conv_of_inv _ _ _ C)). }
  intros H. rewrite run_app in H.
  assert (E : exists h3, cb_run ch0 [CNew true 4; CNew true 4; CAssign 0 1] = Ok (h3, []) /\
    nth_error (ch_mem h3) 0 <> Some None /\ nth_error (ch_mem h3) 0 <> None /\ (forall i c, nth_error (ch_cvs h3) i = Some (Some c) -> cb_blk c <> 0%nat)).
  { eexists. split; [vm_compute; reflexivity|]. split; [discriminate|]. split; [discriminate|].
    intros [|[|[|i]]] c I; cbn in I; try discriminate; injection I as <-; discriminate. }
  destruct E as (h3 & E & P1 & P2 & P3). rewrite E in H. cbn [bind fst snd] in H. destruct (cb_run h3 l) as [[h4 t4]| |] eqn:Q; cbn [bind fst snd] in H; try discriminate. injection H as <- _.
  exact (G l h3 h4 t4 P1 P2 P3 Q).
Qed.
Print Assumptions C264_assign_refuted.
(** A string is gone with the converter that owns its memory, and overwritten by the next conversion. *)
Theorem C264_dangling_refuted : cb_run ch0 [CNew true 8; CConv 0 TInt 12; CDel 0; CRead 0] = UB /\
  exists h, cb_run ch0 [CNew true 8; CConv 0 TInt 12; CConv 0 TInt 3; CRead 0] = Ok (h, [[49; 51]]).
Proof. split; [vm_compute; reflexivity|]. eexists. vm_compute. reflexivity. Qed.
Print Assumptions C264_dangling_refuted.
(** The documented error for a failed allocation never comes: the constructor stores through the null pointer first. A size
    that is not positive is undefined too. *)
Theorem C264_no_memory_refuted : forall h size, cb_step h (CNew false size) = UB /\ (size <= 0 -> cb_step h (CNew true size) = UB).
Proof.
  intros h size. split; [reflexivity|]. intros H. cbn [cb_step]. unfold cb_new, store. destruct (0 <=? size - 1) eqn:E; [apply Z.leb_le in E; lia|reflexivity].
Qed.
Print Assumptions C264_no_memory_refuted.
