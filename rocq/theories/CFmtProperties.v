(** Theorems about the formatters of containers, matrices and transforms (C206-C209). *)
From Coq Require Import Reals Lra.
From Flocq Require Import Core.
From Verif Require Import Base Numerals ConvModel StreamModel FmtModel FmtProofs CFmtModel CFmtProofs.
Open Scope Z_scope.

(** Whole numbers, for the examples. *)
Definition whole_number (s : bool) (n : Z) : fval := mkVal s (IZR n).
Lemma text_whole s n p : 0 <= p -> text_of (whole_number s n) p =
  (if s then [45] else []) ++ dec n ++ (if p =? 0 then [] else 46 :: places p 0).
Proof.
  intros P. unfold text_of, whole_number. cbn [neg mag]. rewrite <- mult_IZR, (Zrnd_IZR ZnearestE). assert (0 < 10 ^ p) by (apply Z.pow_pos_nonneg; lia).
  rewrite Z.div_mul, Z.mod_mul by lia. reflexivity.
Qed.
Definition zero : fval := whole_number false 0.

(** * C206: automatic width *)

(** The numbers are texts of one common length, separated by single spaces. *)
Theorem C206_columns_line_up : forall debug p v tl, 0 <= p <= 20 -> Forall proper (v :: tl) -> (forall u, In u (v :: tl) -> Zlen (text_of u p) <= 29) ->
  exists w, fresh_text debug p (-1) (v :: tl) = Ok ([91; 32] ++ concat (map (fun u => column w p u ++ [32]) (v :: tl)) ++ [93]) /\
    (forall u, In u (v :: tl) -> Zlen (column w p u) = w) /\
    exists u, In u (v :: tl) /\ w <= Zlen (text_of u p) + 3.
Proof.
  intros debug p v tl P F T. pose proof (auto_width_bounds p v tl ltac:(lia) F T) as B. exists (auto_width p v tl). split; [|split].
  - rewrite fresh_shown by (change (2 ^ 31) with 2147483648; lia). unfold shown. change (-1 =? -1) with true. cbv iota. cbn [bind]. fold (auto_width p v tl).
    rewrite (cells_right (auto_width p v tl) p [32] P ltac:(lia) (v :: tl) T). reflexivity.
  - intros u U. unfold column. rewrite Zlen_app. pose proof (auto_width_fits p v tl ltac:(lia) F u U). unfold Zlen in *. rewrite repeat_length. lia.
  - apply auto_width_close; [lia|exact F].
Qed.
Print Assumptions C206_columns_line_up.
Example C206_case : Forall proper [whole_number false 10; whole_number true 3; zero] /\
  (forall u, In u [whole_number false 10; whole_number true 3; zero] -> Zlen (text_of u 2) <= 29).
Proof.
  split; [repeat constructor; cbn; try lra; discriminate|]. intros u [<-|[<-|[<-|[]]]]; unfold zero; rewrite text_whole by lia; vm_compute; discriminate.
Qed.
(** The width is not the smallest that works: 9.5 with two places is four characters, printed in a column of five. *)
Theorem C206_minimal_width_refuted : exists v, proper v /\ Zlen (text_of v 2) = 4 /\
  fresh_text true 2 (-1) [v] = Ok ([91; 32] ++ [32] ++ text_of v 2 ++ [32; 93]).
Proof.
  exists (mkVal false (19 / 2)). assert (PR : proper (mkVal false (19 / 2))) by (split; cbn; [lra|discriminate]).
  assert (T : text_of (mkVal false (19 / 2)) 2 = [57; 46; 53; 48]).
  { unfold text_of. cbn [neg mag]. replace (19 / 2 * IZR (10 ^ 2))%R with (IZR 950) by (change (10 ^ 2) with 100; lra). rewrite (Zrnd_IZR ZnearestE). vm_compute. reflexivity. }
  split; [exact PR|]. split; [rewrite T; reflexivity|]. rewrite fresh_shown by lia. unfold shown. change (-1 =? -1) with true. cbv iota. cbn [bind extremes fst snd].
  assert (D : digits 2 (num (mkVal false (19 / 2))) (num (mkVal false (19 / 2))) = 5).
  { rewrite digits_value. cbn [num neg mag]. destruct (Rlt_dec (19 / 2) 0) as [L|_]; [lra|]. assert (A : Rabs (19 / 2) = (19 / 2)%R) by (apply Rabs_pos_eq; lra).
    assert (U : places_before (19 / 2) <= 2) by (apply places_before_le; [lia|]; rewrite A; change (10 ^ 2) with 100; lra).
    assert (L : ~ places_before (19 / 2) <= 1) by (rewrite places_before_le by lia; rewrite A; change (10 ^ 1) with 10; lra). lia. }
  rewrite D, (cells_right 5 2 [32]) by (try lia; intros u [<-|[]]; rewrite T; vm_compute; discriminate). cbn [map concat bind]. unfold column. rewrite T. reflexivity.
Qed.
Print Assumptions C206_minimal_width_refuted.
(** A negative zero is not counted as negative: the columns of -0.0 and 0.0 differ. *)
Theorem C206_negative_zero_refuted : fresh_text true 2 (-1) [mkVal true 0; mkVal false 0] =
  Ok ([91; 32] ++ [45; 48; 46; 48; 48] ++ [32] ++ [48; 46; 48; 48] ++ [32; 93]).
Proof.
  rewrite fresh_shown by lia. unfold shown. change (-1 =? -1) with true. cbv iota. cbn [bind extremes]. unfold num. cbn [neg mag].
  destruct (Rlt_dec 0 (- 0)) as [L|_]; [lra|]. destruct (Rlt_dec (- 0) 0) as [L|_]; [lra|]. cbn [fst snd].
  assert (D : digits 2 (- 0) (- 0) = 4).
  { rewrite digits_value. destruct (Rlt_dec (- 0) 0) as [L|_]; [lra|]. assert (A : Rabs (- 0) = 0%R) by (rewrite Rabs_Ropp; apply Rabs_R0).
    assert (U : places_before (- 0) <= 0) by (apply places_before_le; [lia|]; rewrite A; change (10 ^ 0) with 1; lra). lia. }
  assert (T1 : text_of (mkVal true 0) 2 = [45; 48; 46; 48; 48]) by (change (mkVal true 0) with (whole_number true 0); rewrite text_whole by lia; reflexivity).
  assert (T2 : text_of (mkVal false 0) 2 = [48; 46; 48; 48]) by (change (mkVal false 0) with (whole_number false 0); rewrite text_whole by lia; reflexivity).
  rewrite D, (cells_right 4 2 [32]) by (try lia; intros u [<-|[<-|[]]]; rewrite ?T1, ?T2; vm_compute; discriminate). cbn [map concat bind]. unfold column. rewrite T1, T2. reflexivity.
Qed.
Print Assumptions C206_negative_zero_refuted.
(** An empty container cannot be printed with the automatic width. *)
Theorem C206_empty_refuted : forall p w, fresh_text true p (-1) [] = Throw OutOfRangeError /\ fresh_text false p (-1) [] = UB /\
  (w <> -1 -> 0 <= p < 2 ^ 31 -> fresh_text true p w [] = Ok [91; 32; 93]).
Proof.
  intros p w. split; [reflexivity|]. split; [reflexivity|]. intros W P. rewrite fresh_shown by exact P. unfold shown. replace (w =? -1) with false by (symmetry; now apply Z.eqb_neq). reflexivity.
Qed.
Print Assumptions C206_empty_refuted.
(** With a given width every number is right aligned in it. *)
Theorem C206_given_width : forall debug p w l, 0 <= p <= 20 -> w <> -1 -> -1000000000 <= w <= 1000000000 -> (forall u, In u l -> Zlen (text_of u p) <= 29) ->
  fresh_text debug p w l = Ok ([91; 32] ++ concat (map (fun u => column w p u ++ [32]) l) ++ [93]).
Proof.
  intros debug p w l P W1 W2 T. rewrite fresh_shown by (change (2 ^ 31) with 2147483648; lia). unfold shown. replace (w =? -1) with false by (symmetry; now apply Z.eqb_neq). cbn [bind].
  rewrite (cells_right w p [32] P W2 l T). reflexivity.
Qed.
Print Assumptions C206_given_width.

(** * C207: temporary settings last for one text *)

Theorem C207_temporaries_do_not_last : forall debug p w l, 0 <= p < 2 ^ 31 -> Forall cstep_ok l ->
  crun debug ff_spec0 (cf_new p w) l = cfresh debug p w l.
Proof.
  intros debug p w l P A. apply crun_fresh; [|exact P|exact spec0_shape|exact A]. unfold kept. cbn. repeat split; auto. exists w. unfold settings, no_tmp. cbn. auto 10.
Qed.
Print Assumptions C207_temporaries_do_not_last.
Lemma show_zero debug p w : 0 <= p <= 20 -> w <> -1 -> -1000000000 <= w <= 1000000000 ->
  shown debug p w [zero] = Ok ([91; 32] ++ repeat 32 (Z.to_nat (w - Zlen (48 :: (if p =? 0 then [] else 46 :: places p 0)))) ++ (48 :: (if p =? 0 then [] else 46 :: places p 0)) ++ [32; 93]).
Proof.
  intros P W1 W2. unfold shown. replace (w =? -1) with false by (symmetry; now apply Z.eqb_neq). cbn [bind].
  assert (T : text_of zero p = 48 :: (if p =? 0 then [] else 46 :: places p 0)) by (unfold zero; rewrite text_whole by lia; reflexivity).
  rewrite (cells_right w p [32]); [|exact P|lia|].
  - cbn [map concat bind]. unfold column. rewrite T. now rewrite <- !app_assoc.
  - intros u [<-|[]]. rewrite T. destruct (p =? 0) eqn:E; [vm_compute; discriminate|]. apply Z.eqb_neq in E. unfold places. rewrite !Zlen_cons, Zlen_app. unfold Zlen. rewrite repeat_length. change (dec 0) with [48]. cbn [length]. lia.
Qed.
Example C207_case : exists o, crun true ff_spec0 (cf_new 2 6) [CShow [zero]; CShowTmp [zero] 3 7; CShow [zero]; CWidth 8; CShow [zero]] = Ok o /\
  o = [[91;32] ++ [32;32;48;46;48;48] ++ [32;93]; [91;32] ++ [32;32;48;46;48;48;48] ++ [32;93]; [91;32] ++ [32;32;48;46;48;48] ++ [32;93]; [91;32] ++ [32;32;32;32;48;46;48;48] ++ [32;93]].
Proof.
  eexists. split; [|reflexivity]. rewrite C207_temporaries_do_not_last by (try lia; repeat constructor; lia). cbn [cfresh]. rewrite !fresh_shown by lia. rewrite !show_zero by lia. reflexivity.
Qed.
(** Two temporary calls without streaming in between: the precision of the first one stays. *)
Theorem C207_two_calls_refuted : exists f1 o1 s1 f2 o2 s2,
  cf_print true ff_spec0 (cf_tmp (cf_tmp (cf_new 2 6) [zero] 3 6) [zero] 4 6) = Ok (f1, o1, s1) /\
  cf_print true s1 (cf_call f1 [zero]) = Ok (f2, o2, s2) /\
  o2 = [91; 32] ++ [32; 48; 46; 48; 48; 48] ++ [32; 93] /\
  fresh_text true 2 6 [zero] = Ok ([91; 32] ++ [32; 32; 48; 46; 48; 48] ++ [32; 93]).
Proof.
  set (f := cf_tmp (cf_tmp (cf_new 2 6) [zero] 3 6) [zero] 4 6).
  assert (G : exists w', settings (c_fmt f) 4 w' RightAlign) by (exists 6; unfold settings, no_tmp; cbn; auto 10).
  pose proof (print_fmt true ff_spec0 f 4 6 3 [zero] _ eq_refl G ltac:(lia) spec0_shape eq_refl eq_refl eq_refl eq_refl ltac:(lia)) as H. rewrite show_zero in H by lia.
  destruct H as (f1 & s1 & E1 & (K1 & K2 & K3 & K4) & S1).
  pose proof (print_fmt true s1 (cf_call f1 [zero]) 3 6 3 [zero] _ eq_refl K4 ltac:(lia) S1 eq_refl eq_refl) as H2. cbn [cf_call c_wtmp c_tw c_pw c_old] in H2. rewrite K1, K2, K3 in H2.
  specialize (H2 eq_refl eq_refl ltac:(lia)). rewrite show_zero in H2 by lia. destruct H2 as (f2 & s2 & E2 & _).
  do 6 eexists. split; [exact E1|]. split; [exact E2|]. split; [reflexivity|]. rewrite fresh_shown by lia. rewrite show_zero by lia. reflexivity.
Qed.
Print Assumptions C207_two_calls_refuted.
(** A permanent precision set between a temporary call and its streaming is used for that text and then lost. *)
Theorem C207_setter_in_between_refuted : exists f1 o1 s1 f2 o2 s2,
  cf_print true ff_spec0 (cf_precision (cf_tmp (cf_new 2 6) [zero] 3 6) 1) = Ok (f1, o1, s1) /\
  cf_print true s1 (cf_call f1 [zero]) = Ok (f2, o2, s2) /\
  o1 = [91; 32] ++ [32; 32; 32; 48; 46; 48] ++ [32; 93] /\ o2 = [91; 32] ++ [32; 32; 48; 46; 48; 48] ++ [32; 93].
Proof.
  set (f := cf_precision (cf_tmp (cf_new 2 6) [zero] 3 6) 1).
  assert (G : exists w', settings (c_fmt f) 1 w' RightAlign) by (exists 6; unfold settings, no_tmp; cbn; auto 10).
  pose proof (print_fmt true ff_spec0 f 1 6 2 [zero] _ eq_refl G ltac:(lia) spec0_shape eq_refl eq_refl eq_refl eq_refl ltac:(lia)) as H. rewrite show_zero in H by lia.
  destruct H as (f1 & s1 & E1 & (K1 & K2 & K3 & K4) & S1).
  pose proof (print_fmt true s1 (cf_call f1 [zero]) 2 6 2 [zero] _ eq_refl K4 ltac:(lia) S1 eq_refl eq_refl) as H2. cbn [cf_call c_wtmp c_tw c_pw c_old] in H2. rewrite K1, K2, K3 in H2.
  specialize (H2 eq_refl eq_refl ltac:(lia)). rewrite show_zero in H2 by lia. destruct H2 as (f2 & s2 & E2 & _).
  do 6 eexists. split; [exact E1|]. split; [exact E2|]. split; reflexivity.
Qed.
Print Assumptions C207_setter_in_between_refuted.

(** * C208: matrices and transforms *)

Theorem C208_temporaries_do_not_last : forall debug p w l, 0 <= p < 2 ^ 31 -> Forall mstep_ok l ->
  mrun debug ff_spec0 (mf_new_matrix w p) l = mfresh debug mf_new_matrix w p l /\
  mrun debug ff_spec0 (mf_new_transform w p) l = mfresh debug mf_new_transform w p l.
Proof.
  intros debug p w l P A. split.
  - apply mrun_fresh; auto using spec0_shape. exact new_matrix_kept. now apply new_matrix_kept.
  - apply mrun_fresh; auto using spec0_shape. exact new_transform_kept. now apply new_transform_kept.
Qed.
Print Assumptions C208_temporaries_do_not_last.
(** Every element right aligned in its column and followed by two spaces; a line feed after each row unless there is one row. *)
Definition row_text (w p : Z) (r : list fval) : list Z := concat (map (fun v => column w p v ++ [32; 32]) r).
Definition matrix_text (w p : Z) (rows : list (list fval)) : list Z :=
  if Zlen rows =? 1 then concat (map (row_text w p) rows) else concat (map (fun r => row_text w p r ++ [10]) rows).
Lemma row_pieces w p r : concat (map (show_piece w p) (concat (map (fun v => [Num v; Txt [32; 32]]) r))) = row_text w p r.
Proof. unfold row_text. induction r as [|v r IH]; [reflexivity|]. cbn [map concat show_piece app]. rewrite <- app_assoc. cbn [app]. now rewrite IH. Qed.
Theorem C208_matrix_layout : forall debug w p rows, 0 <= p <= 20 -> -1000000000 <= w <= 1000000000 ->
  (forall r v, In r rows -> In v r -> Zlen (text_of v p) <= 29) ->
  fresh_sheet debug mf_new_matrix w p (matrix_sheet rows) = Ok (matrix_text w p rows).
Proof.
  intros debug w p rows P W T. rewrite (fresh_sheet_text debug mf_new_matrix) by (try exact new_matrix_kept; change (2 ^ 31) with 2147483648; lia).
  rewrite (sheet_text w p P W).
  - f_equal. unfold matrix_sheet, matrix_text. destruct (Zlen rows =? 1) eqn:L.
    + apply Z.eqb_eq in L. destruct rows as [|r [|r2 rest]]; [discriminate| |rewrite !Zlen_cons in L; pose proof (Zlen_nonneg rest); lia]. cbn [map concat]. rewrite !app_nil_r. apply row_pieces.
    + destruct rows as [|r [|r2 rest]]; [reflexivity|discriminate|]. rewrite concat_map_concat, map_map. f_equal. apply map_ext. intros x. rewrite map_app, concat_app, row_pieces. reflexivity.
  - intros v V. unfold matrix_sheet in V. apply in_concat in V as (x & X & V). apply in_map_iff in X as (r & <- & R). apply in_app_iff in V as [V|V].
    + apply in_concat in V as (y & Y & V). apply in_map_iff in Y as (u & <- & U). destruct V as [V|[V|[]]]; [|discriminate]. injection V as <-. exact (T r u R U).
    + destruct rows as [|a [|b rest]]; [contradiction|contradiction|destruct V as [V|[]]; discriminate].
Qed.
Print Assumptions C208_matrix_layout.
Theorem C208_transform_layout : forall debug w p x y z qx qy qz qw, 0 <= p <= 20 -> -1000000000 <= w <= 1000000000 ->
  (forall v, In v [x; y; z; qx; qy; qz; qw] -> Zlen (text_of v p) <= 29) ->
  fresh_sheet debug mf_new_transform w p (transform_sheet x y z qx qy qz qw) =
  Ok ([91; 120; 58] ++ column w p x ++ [32; 32; 121; 58] ++ column w p y ++ [32; 32; 122; 58] ++ column w p z ++ [93] ++
      [91; 120; 58] ++ column w p qx ++ [32; 32; 121; 58] ++ column w p qy ++ [32; 32; 122; 58] ++ column w p qz ++ [32; 32; 119; 58] ++ column w p qw ++ [32; 32; 93]).
Proof.
  intros debug w p x y z qx qy qz qw P W T. rewrite (fresh_sheet_text debug mf_new_transform) by (try exact new_transform_kept; change (2 ^ 31) with 2147483648; lia).
  rewrite (sheet_text w p P W); [reflexivity|]. intros v V. apply T. unfold transform_sheet in V. cbn in V.
  repeat (destruct V as [V|V]; [try discriminate; injection V as <-; cbn; auto 10|]). contradiction.
Qed.
Print Assumptions C208_transform_layout.
Example C208_case : fresh_sheet true mf_new_matrix 5 1 (matrix_sheet [[zero; whole_number true 7]; [whole_number false 12; zero]]) =
  Ok ([32;32;48;46;48;32;32] ++ [32;45;55;46;48;32;32;10] ++ [32;49;50;46;48;32;32] ++ [32;32;48;46;48;32;32;10]).
Proof.
  rewrite C208_matrix_layout by (try lia; intros r v [<-|[<-|[]]] [<-|[<-|[]]]; unfold zero; rewrite text_whole by lia; vm_compute; discriminate).
  unfold matrix_text, row_text, column, zero. cbn [map concat]. rewrite !text_whole by lia. reflexivity.
Qed.
(** A temporary call that is not streamed: the next call, without settings, prints with them. *)
Theorem C208_pending_temporary_refuted : exists f1 o1 s1,
  mf_print true ff_spec0 (mf_call (mf_tmp (mf_new_matrix 6 2) (matrix_sheet [[whole_number false 1]]) 7 3) (matrix_sheet [[zero]])) = Ok (f1, o1, s1) /\
  o1 = [32; 32; 48; 46; 48; 48; 48; 32; 32] /\
  fresh_sheet true mf_new_matrix 6 2 (matrix_sheet [[zero]]) = Ok [32; 32; 48; 46; 48; 48; 32; 32].
Proof.
  change (mf_call (mf_tmp (mf_new_matrix 6 2) (matrix_sheet [[whole_number false 1]]) 7 3) (matrix_sheet [[zero]])) with (mf_tmp (mf_new_matrix 6 2) (matrix_sheet [[zero]]) 7 3).
  pose proof (mf_tmp_print true ff_spec0 _ 2 6 (matrix_sheet [[zero]]) 3 7 (new_matrix_kept 6 2 ltac:(lia)) ltac:(lia) ltac:(lia) spec0_shape) as H.
  rewrite (sheet_text 7 3) in H by (try lia; cbn; intros v [V|[V|[]]]; try discriminate; injection V as <-; unfold zero; rewrite text_whole by lia; vm_compute; discriminate).
  destruct H as (f1 & s1 & E & _). do 3 eexists. split; [exact E|]. split.
  - cbn [matrix_sheet map concat app show_piece]. unfold column, zero. rewrite text_whole by lia. reflexivity.
  - rewrite C208_matrix_layout by (try lia; intros r v [<-|[]] [<-|[]]; unfold zero; rewrite text_whole by lia; vm_compute; discriminate).
    unfold matrix_text, row_text, column, zero. cbn [map concat]. rewrite !text_whole by lia. reflexivity.
Qed.
Print Assumptions C208_pending_temporary_refuted.

(** * C209: bytes, and streaming twice *)

Theorem C209_byte_text : forall debug conv t l, byte_type t ->
  bf_print debug conv t (bf_call l) = Ok ([91; 32] ++ concat (map (fun b => byte_text b ++ [32]) l) ++ [93]).
Proof. intros debug conv t l T. unfold bf_print. cbn [bf_call b_ready b_data negb]. rewrite andb_false_r, bytes_text_ok by (try exact T; reflexivity). reflexivity. Qed.
Print Assumptions C209_byte_text.
Example C209_case : bf_print true [] FUChar (bf_call [0; 10; 255]) = Ok [91;32; 48;120;48;48;32; 48;120;48;97;32; 48;120;102;102;32; 93].
Proof. reflexivity. Qed.
(** A formatter of numbers that was streamed refuses (debug build) to be streamed again; in a release build it prints the
    container of its last call again, with the permanent settings. Matrix formatters then print nothing. *)
Theorem C209_streamed_twice : forall p w c t pt wt, 0 <= p < 2 ^ 31 -> 0 <= pt < 2 ^ 31 ->
  forall debug f o s, (cf_print debug ff_spec0 (cf_call (cf_new p w) c) = Ok (f, o, s) \/ cf_print debug ff_spec0 (cf_tmp (cf_new p w) c pt wt) = Ok (f, o, s)) ->
  cf_print true s f = Throw UsageError /\ (fresh_text false p w c = Ok t -> exists f' s', cf_print false s f = Ok (f', t, s')).
Proof.
  intros p w c t pt wt P PT debug f o s H.
  assert (K : kept f p w /\ spec_shape s /\ c_ready f = false /\ c_cont f = Some c).
  { assert (X : forall g, c_cont g = Some c -> cf_print debug ff_spec0 g = Ok (f, o, s) -> c_ready f = false /\ c_cont f = Some c).
    { intros g GC HG. unfold cf_print in HG. rewrite GC in HG. destruct (debug && negb (c_ready g)); [discriminate|].
      destruct (if _ =? -1 then _ else _) as [fm|e|]; try discriminate; cbn [bind] in HG. destruct (print_all debug ff_spec0 fm c [32]) as [[[fm1 out] sp]|e|]; try discriminate; cbn [bind] in HG.
      injection HG as <- _ _. split; reflexivity. }
    destruct H as [H|H].
    - assert (G : exists w', settings (c_fmt (cf_call (cf_new p w) c)) p w' RightAlign) by (exists w; unfold settings, no_tmp; cbn; auto 10).
      pose proof (print_fmt debug ff_spec0 (cf_call (cf_new p w) c) p w p c _ eq_refl G ltac:(lia) spec0_shape eq_refl eq_refl eq_refl eq_refl P) as E. rewrite H in E.
      destruct (shown debug p w c); try discriminate. destruct E as (f' & s' & E & K & S). injection E as <- _ <-. split; [exact K|split; [exact S|]]. exact (X (cf_call (cf_new p w) c) eq_refl H).
    - assert (G : exists w', settings (c_fmt (cf_tmp (cf_new p w) c pt wt)) pt w' RightAlign) by (exists w; apply settings_prec with p; [unfold settings, no_tmp; cbn; auto 10|exact PT]).
      pose proof (print_fmt debug ff_spec0 (cf_tmp (cf_new p w) c pt wt) pt wt p c _ eq_refl G ltac:(lia) spec0_shape eq_refl eq_refl eq_refl) as E.
      assert (OE : p = (if c_old (cf_tmp (cf_new p w) c pt wt) =? -1 then pt else c_old (cf_tmp (cf_new p w) c pt wt))) by (change (c_old (cf_tmp (cf_new p w) c pt wt)) with p; replace (p =? -1) with false by (symmetry; apply Z.eqb_neq; lia); reflexivity).
      specialize (E OE P). rewrite H in E. destruct (shown debug pt wt c); try discriminate. destruct E as (f' & s' & E & K & S). injection E as <- _ <-. split; [exact K|split; [exact S|]]. exact (X (cf_tmp (cf_new p w) c pt wt) eq_refl H). }
  destruct K as ((K1 & K2 & K3 & K4) & S & R & C). split.
  - unfold cf_print. rewrite R. reflexivity.
  - rewrite fresh_shown by exact P. intros SH. assert (EQ : cf_print false s f = cf_print false s (cf_call f c)) by (unfold cf_print; cbn [cf_call c_cont c_wtmp c_tw c_pw c_old c_fmt andb]; rewrite C; reflexivity). rewrite EQ.
    pose proof (print_fmt false s (cf_call f c) p w p c _ eq_refl K4 ltac:(lia) S eq_refl eq_refl) as E. cbn [cf_call c_wtmp c_tw c_pw c_old] in E. rewrite K1, K2, K3 in E.
    specialize (E eq_refl eq_refl P). rewrite SH in E. destruct E as (f' & s' & E & _). eauto.
Qed.
Print Assumptions C209_streamed_twice.
(** Byte formatters do not notice it, though their documentation promises an exception in debug builds. *)
Theorem C209_bytes_twice_refuted : forall debug conv t l, byte_type t -> bf_print debug conv t (bf_call l) <> Throw UsageError /\
  bf_print true conv t bf_new = Throw UsageError /\ bf_print false conv t bf_new = UB.
Proof. intros debug conv t l T. rewrite C209_byte_text by exact T. repeat split. discriminate. Qed.
Print Assumptions C209_bytes_twice_refuted.
