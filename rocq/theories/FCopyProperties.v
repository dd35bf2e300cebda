(** Theorems about copies of Format<float> and Format<double> (C210). *)
From Verif Require Import Base StreamModel FmtModel FCopyModel FCopyProofs.
Open Scope Z_scope.

(** A number whose text is "7" with any precision, for the examples. *)
Definition seven : ftext := fun _ => [55].

(** Programs in which every copy or assigned formatter prints before anything else happens: formatters are values. What is
    missing: programs that use a copy in another way first. They do not behave so, see below. *)
Theorem C210_values_partial : forall debug l, Forall op_ok l -> frun debug [] l = vrun [] l.
Proof. intros debug l K. apply frun_value; [|exact K]. split; [reflexivity|]. intros [|i] o y H; discriminate. Qed.
Print Assumptions C210_values_partial.
Example C210_case : frun true [] [OMake 3 2 RightAlign; OCopyShow 0 seven; OWidth 0 5; OShow 1 seven; OAlign 1 LeftAlign; ODestroy 0; OShow 1 seven; OShowTmp 1 seven 2 4; OShow 1 seven] =
  Ok [[32; 32; 55]; [32; 32; 55]; [55; 32; 32]; [55; 32; 32; 32]; [55; 32; 32]].
Proof. reflexivity. Qed.
(** A setter of a copy that has not printed yet sets the original. *)
Theorem C210_copy_sets_original_refuted : exists h h1 h2 hp o,
  copy (make [] 3 2 RightAlign) 0 = Ok h /\ set_width h 1 6 = Ok h1 /\ call h1 0 seven = Ok h2 /\ print true h2 0 = Ok (hp, o) /\
  o = [32; 32; 32; 32; 32; 55] /\ frun true [] [OMake 3 2 RightAlign; OShow 0 seven] = Ok [[32; 32; 55]].
Proof. do 5 eexists. repeat (split; [vm_compute; reflexivity|]). reflexivity. Qed.
Print Assumptions C210_copy_sets_original_refuted.
(** ... and does not stay with the copy: after its first text the copy has the settings of the moment of copying. *)
Theorem C210_copy_forgets_refuted : exists h h1 h2 h3 h4 h5 o1 o2,
  copy (make [] 3 2 RightAlign) 0 = Ok h /\ set_width h 1 6 = Ok h1 /\
  call h1 1 seven = Ok h2 /\ print true h2 1 = Ok (h3, o1) /\ call h3 1 seven = Ok h4 /\ print true h4 1 = Ok (h5, o2) /\
  o1 = [32; 32; 32; 32; 32; 55] /\ o2 = [32; 32; 55].
Proof. do 8 eexists. repeat (split; [vm_compute; reflexivity|]). reflexivity. Qed.
Print Assumptions C210_copy_forgets_refuted.
(** A copy that has not printed when the original is destroyed is unusable: every setter and the printing are undefined. *)
Theorem C210_dangling_refuted : forall debug w p a v p' w', exists h h1 h2,
  copy (make [] w p a) 0 = Ok h /\ destroy h 0 = Ok h1 /\ call h1 1 v = Ok h2 /\ print debug h2 1 = UB /\
  set_width h1 1 w' = UB /\ set_prec h1 1 p' = UB /\ forall a', set_align h1 1 a' = UB.
Proof. intros debug w p a v p' w'. do 3 eexists. repeat (split; [reflexivity|]). intros a'. reflexivity. Qed.
Print Assumptions C210_dangling_refuted.
(** Assignment: the assigned formatter is tied to the source until its next text. *)
Theorem C210_assignment_refuted : exists h h1 h2 hp o,
  assign (make (make [] 3 2 RightAlign) 9 1 RightAlign) 1 0 = Ok h /\ set_width h 0 5 = Ok h1 /\ call h1 1 seven = Ok h2 /\ print true h2 1 = Ok (hp, o) /\
  o = [32; 32; 32; 32; 55].
Proof. do 5 eexists. repeat (split; [vm_compute; reflexivity|]). reflexivity. Qed.
Print Assumptions C210_assignment_refuted.
(** A copy taken between the call with temporary settings and its text prints the settings of the original's temporary. *)
Theorem C210_copy_of_pending : forall debug w p a v p' w', 0 <= p' <= 20 -> a <> NoAlign -> forall t,
  frun debug [] [OMake w p a; OShowTmp 0 v p' w'] = Ok [t] ->
  exists h h1 h2, call_tmp (make [] w p a) 0 v p' w' = Ok h /\ copy h 0 = Ok h1 /\ print debug h1 1 = Ok (h2, t).
Proof.
  intros debug w p a v p' w' P N t H. rewrite C210_values_partial in H by (repeat constructor; cbn; try exact N; change (2 ^ 31) with 2147483648; lia).
  cbn [vrun vstep bind app look nth_error y_a snd fst] in H. destruct (text_in (mkStyle w' p' a) v) as [x|e|] eqn:T; cbn [bind app fst snd] in H; try discriminate. injection H as ->.
  assert (G : get (make [] w p a) 0 = Ok (mkObj (mkSets w p a) (mkSets 0 0 NoAlign) (0%nat, false) (0%nat, false) (0%nat, false) false (fun _ => []))) by reflexivity.
  do 3 eexists. split; [exact (call_tmp_own _ _ _ v p' w' G eq_refl eq_refl eq_refl N)|]. split; [reflexivity|].
  unfold print. cbn [make length app put upd get nth_error bind o_ready negb at_p at_w at_a read fst snd group o_tmp s_p s_w s_a o_prm o_val]. rewrite wrap_prec by (change (2 ^ 31) with 2147483648; lia).
  unfold text_in in T. cbn [y_w y_p y_a] in T. cbv zeta. cbv zeta in T. rewrite T. reflexivity.
Qed.
Print Assumptions C210_copy_of_pending.
(** A formatter prints once for each call: streamed again (or copied after the text and streamed) it throws in debug builds and adds
    nothing otherwise. *)
Theorem C210_prints_once : forall w p a v debug, a <> NoAlign -> 0 <= p <= 20 -> forall h1 h2 t,
  call (make [] w p a) 0 v = Ok h1 -> print debug h1 0 = Ok (h2, t) ->
  print true h2 0 = Throw UsageError /\ print false h2 0 = Ok (h2, []) /\
  exists h3, copy h2 0 = Ok h3 /\ print true h3 1 = Throw UsageError /\ print false h3 1 = Ok (h3, []).
Proof.
  intros w p a v debug A P h1 h2 t H1 H2. injection H1 as <-. unfold print in H2. cbn [make put upd get nth_error length app bind o_ready negb at_p at_w at_a o_val o_prm o_tmp read group fst snd s_p s_w s_a Nat.eqb andb] in H2.
  destruct (lay _ _ _ _) as [o| |]; cbn [bind] in H2; try discriminate. injection H2 as <- _. repeat (split; [reflexivity|]). eexists. repeat (split; [reflexivity|]). reflexivity.
Qed.
Print Assumptions C210_prints_once.
Example C210_case3 : exists h1 h2, call (make [] 3 2 RightAlign) 0 seven = Ok h1 /\ print true h1 0 = Ok (h2, [32; 32; 55]).
Proof. do 2 eexists. split; reflexivity. Qed.
