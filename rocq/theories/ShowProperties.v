(** Properties of what objects print (C250-C253). *)
From Coq Require Import String Ascii Factorial.
From Verif Require Import Base Numerals ConvModel ConvProofs StreamModel StreamProofs FmtModel FmtProofs ArrayModel PolyModel PolyProperties ShowModel.
Open Scope Z_scope.

(** * Reading text: the words between blanks, the lines *)
Definition flush (cur : list Z) (l : list (list Z)) : list (list Z) := match cur with [] => l | _ => cur :: l end.
Fixpoint cut (sep : Z) (cur s : list Z) : list (list Z) :=
  match s with [] => flush cur [] | c :: tl => if c =? sep then flush cur (cut sep [] tl) else cut sep (cur ++ [c]) tl end.
Definition words (s : list Z) : list (list Z) := cut 32 [] s.
Definition lines (s : list Z) : list (list Z) := cut 10 [] s.

Lemma cut_free sep t : ~ In sep t -> forall cur s, cut sep cur (t ++ s) = cut sep (cur ++ t) s.
Proof.
  induction t as [|c t IH]; intros H cur s; cbn [app]; [rewrite app_nil_r; reflexivity|]. cbn [cut].
  destruct (Z.eqb_spec c sep) as [->|]; [destruct H; left; reflexivity|]. rewrite IH by (intros I; apply H; right; exact I). rewrite <- app_assoc. reflexivity.
Qed.
Lemma cut_word sep t s : ~ In sep t -> t <> [] -> cut sep [] (t ++ sep :: s) = t :: cut sep [] s.
Proof. intros H N. rewrite cut_free by exact H. cbn [app cut]. rewrite Z.eqb_refl. destruct t; [contradiction|reflexivity]. Qed.
Lemma cut_last sep t : ~ In sep t -> t <> [] -> cut sep [] t = [t].
Proof. intros H N. rewrite <- (app_nil_r t) at 1. rewrite cut_free by exact H. cbn. destruct t; [contradiction|reflexivity]. Qed.
Lemma cut_seps sep n s : cut sep [] (repeat sep n ++ s) = cut sep [] s.
Proof. induction n as [|n IH]; [reflexivity|]. cbn [repeat app cut]. rewrite Z.eqb_refl. exact IH. Qed.
Lemma cut_all_seps sep n : cut sep [] (repeat sep n) = [].
Proof. rewrite <- (app_nil_r (repeat sep n)). rewrite cut_seps. reflexivity. Qed.

(** * C250: a printed triangle shows its numbers *)
Lemma numeral_chars c s : numeral c s -> ~ In 32 s /\ ~ In 10 s /\ s <> [].
Proof.
  assert (D : forall k l, ~ (48 <= k <= 57) -> forallb is_digit l = true -> ~ In k l).
  { intros k l K H I. rewrite forallb_forall in H. specialize (H _ I). unfold is_digit in H. lia. }
  intros [[_ (H & N & _)]|[_ (u & -> & (H & N & _))]].
  - split; [apply D; [lia|exact H]|]. split; [apply D; [lia|exact H]|exact N].
  - split; [intros [E|I]; [discriminate|revert I; apply D; [lia|exact H]]|]. split; [intros [E|I]; [discriminate|revert I; apply D; [lia|exact H]]|discriminate].
Qed.

Definition pinv (w : Z) (f : fmt) : Prop := on_tmp f = false /\ prm_width f = w /\ prm_align f = CentreAlign /\ prm_base f = Dec.
Lemma print_one debug conv w f c : Zlen conv = 250 -> pinv w f -> 0 <= w <= 100 -> 0 <= c < 2 ^ 31 ->
  exists f' out s l r, f_print debug FInt conv (f_val f c) = Ok (f', out) /\ pinv w f' /\ numeral c s /\ out = repeat 32 l ++ s ++ repeat 32 r /\ Zlen out = Z.max w (Zlen s).
Proof.
  intros HC (H1 & H2 & H3 & H4) HW Hc.
  destruct (f_print_ok debug FInt conv (f_val f c) CentreAlign HC) as (s & out & f' & P1 & P2 & (l & r & P3 & P4 & P5) & P6 & P7 & P8 & P9 & _).
  - reflexivity.
  - destruct f. cbn in *. subst. reflexivity.
  - destruct f. cbn in *. subst. unfold width_ok, int_min, int_max, cur_width. cbn. lia.
  - destruct f. cbn in *. subst. unfold good_value, cur_base, in_type. cbn in *. lia.
  - exists f', out, s, l, r. split; [exact P1|]. split.
    + unfold pinv. rewrite P7, P8, P9. destruct f. cbn in *. auto.
    + split; [destruct f; cbn in *; subst; exact P2|]. split; [exact P3|]. rewrite P5. destruct f. cbn in *. subst. unfold cur_width. cbn. reflexivity.
Qed.

(** A row: the words are the decimal numerals of the numbers; every number takes the width and a blank, or what it needs beyond that. *)
Definition overhang (w : Z) (ws : list (list Z)) : Z := fold_right (fun s k => Z.max 0 (Zlen s - w) + k) 0 ws.
Definition row_of (w : Z) (cs row : list Z) : Prop :=
  ~ In 10 row /\ Forall2 numeral cs (words row) /\ Zlen row = Zlen cs * (w + 1) + overhang w (words row).
Lemma overhang_fits w ws : Forall (fun s => Zlen s <= w) ws -> overhang w ws = 0.
Proof. induction 1 as [|s ws H _ IH]; [reflexivity|]. cbn [overhang fold_right]. fold (overhang w ws). rewrite IH. lia. Qed.
Lemma overhang_pos w ws : 0 <= overhang w ws.
Proof. induction ws as [|s ws IH]; [reflexivity|]. cbn [overhang fold_right]. fold (overhang w ws). lia. Qed.
Lemma overhang_wide w ws s : In s ws -> w < Zlen s -> 0 < overhang w ws.
Proof.
  induction ws as [|a ws IH]; [intros []|]. cbn [overhang fold_right In]. fold (overhang w ws). pose proof (overhang_pos w ws) as P.
  intros [->|I] H; [lia|]. specialize (IH I H). lia.
Qed.
Lemma no10 n : ~ In 10 (repeat 32 n).
Proof. intros H. apply repeat_spec in H. discriminate. Qed.
Lemma row_ok debug conv coeffs w : (forall k, Zlen (conv k) = 250) -> 0 <= w <= 100 -> forall cs counter f out, pinv w f -> Forall (fun c => 0 <= c < 2 ^ 31) cs -> 0 <= counter ->
  (forall k, (k < List.length cs)%nat -> zget coeffs (counter + Z.of_nat k) = nth_error cs k) ->
  exists f' row, tri_row debug conv coeffs (List.length cs) counter f out = Ok (counter + Zlen cs, f', out ++ row) /\ pinv w f' /\ row_of w cs row.
Proof.
  intros HC HW. induction cs as [|c cs IH]; intros counter f out HI HB H0 HZ.
  - exists f, []. cbn [List.length tri_row]. rewrite app_nil_r, Zlen_nil, Z.add_0_r. split; [reflexivity|]. split; [exact HI|]. split; [intros []|]. split; [constructor|reflexivity].
  - inversion HB as [|? ? B1 B2]; subst. cbn [List.length tri_row]. pose proof (HZ 0%nat ltac:(cbn; lia)) as Z0. cbn in Z0. rewrite Z.add_0_r in Z0. rewrite Z0.
    destruct (print_one debug (conv counter) w f c (HC _) HI HW B1) as (f1 & o & s & l & r & P1 & P2 & P3 & P4 & P5). rewrite P1. cbn [bind fst snd].
    destruct (IH (counter + 1) f1 (out ++ o ++ lit " ") P2 B2 ltac:(lia)) as (f2 & row & Q1 & Q2 & (Q3 & Q4 & Q5)).
    { intros k K. specialize (HZ (S k) ltac:(cbn; lia)). cbn [nth_error] in HZ. rewrite <- HZ. f_equal. lia. }
    exists f2, (o ++ lit " " ++ row). rewrite Q1. split; [rewrite Zlen_cons, <- !app_assoc; f_equal; f_equal; f_equal; lia|]. split; [exact Q2|].
    destruct (numeral_chars c s P3) as (N1 & N2 & N3).
    assert (W : words (o ++ lit " " ++ row) = s :: words row).
    { unfold words. rewrite P4, <- !app_assoc, cut_seps. change (repeat 32 r ++ lit " " ++ row) with (repeat 32 r ++ 32 :: row).
      assert (E : repeat 32 r ++ 32 :: row = 32 :: repeat 32 r ++ row) by (clear; induction r as [|r IH]; [reflexivity|]; cbn; rewrite IH; reflexivity).
      rewrite E, cut_word by assumption. rewrite cut_seps. reflexivity. }
    split; [|split].
    + rewrite P4. intros I. rewrite !in_app_iff in I. destruct I as [[I|[I|I]]|[[I|[]]|I]]; [exact (no10 _ I)|exact (N2 I)|exact (no10 _ I)|discriminate|exact (Q3 I)].
    + rewrite W. constructor; assumption.
    + rewrite W. cbn [overhang fold_right]. fold (overhang w (words row)). rewrite !Zlen_app, Zlen_cons, Q5, P5. change (Zlen (lit " ")) with 1. nia.
Qed.

(** Texts of lines. *)
Definition text_of (rows : list (list Z)) : list Z := List.concat (map (fun r => r ++ [10]) rows).
Lemma lines_text rows : Forall (fun r => ~ In 10 r /\ r <> []) rows -> lines (text_of rows) = rows.
Proof.
  unfold lines, text_of. induction 1 as [|r rows [H1 H2] _ IH]; [reflexivity|]. cbn [map List.concat]. rewrite <- app_assoc. cbn [app]. rewrite cut_word by assumption. rewrite IH. reflexivity.
Qed.

Lemma all_small : forallb (fun n => match pascal n with Ok t => forallb (fun c => (0 <=? c) && (c <? 2 ^ 31)) t | _ => false end) (seq 0 34) = true.
Proof. vm_compute. reflexivity. Qed.
Lemma all_fit : forallb (fun n => match pascal n with Ok t => forallb (fun c => c <? 10 ^ (2 + Z.quot (Z.of_nat n) 5)) t | _ => false end) (25%nat :: seq 0 23) = true.
Proof. vm_compute. reflexivity. Qed.
Lemma Forall2_nth {A B} (R : A -> B -> Prop) l l' : Forall2 R l l' -> forall j x, nth_error l j = Some x -> exists y, nth_error l' j = Some y /\ R x y.
Proof. induction 1 as [|x y l l' H _ IH]; intros j z E; [destruct j; discriminate|]. destruct j as [|j]; cbn in E; [injection E as ->; exists y; split; [reflexivity|exact H]|exact (IH j z E)]. Qed.
Lemma Forall2_len {A B} (R : A -> B -> Prop) l l' : Forall2 R l l' -> List.length l = List.length l'.
Proof. induction 1; cbn; congruence. Qed.
Lemma zget_in {A} (l : list A) i c : zget l i = Some c -> In c l.
Proof. unfold zget. destruct (i <? 0); [discriminate|]. apply nth_error_In. Qed.

Definition good_row (n : nat) (t : list Z) (i : nat) (row : list Z) : Prop :=
  exists cs, List.length cs = (S n - i)%nat /\ (forall j, (j < List.length cs)%nat -> zget t (pascal_begin n i + Z.of_nat j) = nth_error cs j) /\ row_of (2 + Z.quot (Z.of_nat n) 5) cs row.
Lemma rows_show debug conv n t : (n <= 33)%nat -> (forall k, Zlen (conv k) = 250) -> pascal n = Ok t -> forall i f out, (i <= S n)%nat -> pinv (2 + Z.quot (Z.of_nat n) 5) f ->
  exists rows, tri_rows debug conv t i (pascal_begin n (S n - i)) f out = Ok (out ++ text_of rows) /\ List.length rows = i /\
    forall k row, nth_error rows k = Some row -> good_row n t (S n - i + k) row.
Proof.
  intros N HC HP. destruct (C45_triangle_holds_binomials n N) as (t' & HP' & _ & HT). rewrite HP in HP'. injection HP' as <-.
  assert (HS : Forall (fun c => 0 <= c < 2 ^ 31) t).
  { pose proof all_small as A. rewrite forallb_forall in A. specialize (A n ltac:(apply in_seq; lia)). rewrite HP in A. rewrite forallb_forall in A. apply Forall_forall. intros c I. specialize (A c I). lia. }
  assert (HW : 0 <= 2 + Z.quot (Z.of_nat n) 5 <= 100) by (rewrite Z.quot_div_nonneg by lia; pose proof (Z.div_le_upper_bound (Z.of_nat n) 5 33 ltac:(lia) ltac:(lia)); pose proof (Z.div_pos (Z.of_nat n) 5); lia).
  induction i as [|i IH]; intros f out I HI.
  - exists []. cbn [tri_rows]. rewrite app_nil_r. split; [reflexivity|]. split; [reflexivity|]. intros [|k] row E; discriminate.
  - cbn [tri_rows]. set (r := (S n - S i)%nat). destruct (HT r ltac:(subst r; lia)) as ((B0 & B1 & _ & B2) & HE).
    assert (CS : exists cs, List.length cs = S i /\ forall j, (j < S i)%nat -> zget t (pascal_begin n r + Z.of_nat j) = nth_error cs j).
    { assert (G : forall m, (m <= S i)%nat -> exists cs, List.length cs = m /\ forall j, (j < m)%nat -> zget t (pascal_begin n r + Z.of_nat j) = nth_error cs j).
      { induction m as [|m IHm]; intros M; [exists []; split; [reflexivity|intros; lia]|]. destruct (IHm ltac:(lia)) as (cs & L & G). destruct (HE m ltac:(subst r; lia)) as (c & Z & _).
        exists (cs ++ [c]). split; [rewrite app_length; cbn; lia|]. intros j J. destruct (Nat.eq_dec j m) as [->|]; [rewrite Z, nth_error_app2 by lia; rewrite L, Nat.sub_diag; reflexivity|].
        rewrite nth_error_app1 by lia. apply G. lia. }
      exact (G (S i) (le_n _)). }
    destruct CS as (cs & L & G). assert (FB : Forall (fun c => 0 <= c < 2 ^ 31) cs).
    { apply Forall_forall. intros c Ic. apply In_nth_error in Ic as (j & J). assert (j < S i)%nat by (rewrite <- L; apply nth_error_Some; congruence).
      rewrite <- G in J by assumption. rewrite Forall_forall in HS. apply HS. exact (zget_in _ _ _ J). }
    destruct (row_ok debug conv t _ HC HW cs (pascal_begin n r) f out HI FB B0) as (f1 & row & R1 & R2 & R3); [intros k K; apply G; lia|].
    rewrite L in R1. rewrite R1. cbn [bind fst snd].
    replace (pascal_begin n r + Zlen cs) with (pascal_begin n (S n - i)) by (replace (S n - i)%nat with (S r) by (subst r; lia); rewrite B2, B1; unfold Zlen; rewrite L; subst r; lia).
    destruct (IH f1 ((out ++ row) ++ [10]) ltac:(lia) R2) as (rows & Q1 & Q2 & Q3). exists (row :: rows). rewrite Q1. split; [f_equal; unfold text_of; cbn [map List.concat]; rewrite <- !app_assoc; reflexivity|].
    split; [cbn; lia|]. intros [|k] row' E; cbn [nth_error] in E.
    + injection E as <-. rewrite Nat.add_0_r. exists cs. split; [subst r; lia|]. split; [intros j J; apply G; lia|exact R3].
    + replace (r + S k)%nat with (S n - i + k)%nat by (subst r; lia). exact (Q3 k row' E).
Qed.

(** Line i of the printed triangle has the words of its diagonal i: the decimal numerals of the binomials (i + j)! / (i! j!). *)
Theorem C250_numbers : forall debug ta conv n t, (n <= 33)%nat -> (forall k, Zlen (conv k) = 250) -> pascal n = Ok t ->
  exists out, show_triangle debug ta conv n t = Ok out /\ List.length (lines out) = S n /\
    forall i, (i <= n)%nat -> exists row, nth_error (lines out) i = Some row /\ List.length (words row) = (S n - i)%nat /\
      forall j, (j <= n - i)%nat -> exists c s, nth_error (words row) j = Some s /\ numeral c s /\ c * Z.of_nat (fact i) * Z.of_nat (fact j) = Z.of_nat (fact (i + j)).
Proof.
  intros debug ta conv n t N HC HP. destruct (rows_show debug conv n t N HC HP (S n) (FmtModel.fmt_new ta (2 + Z.quot (Z.of_nat n) 5) CentreAlign Dec) [] (le_n _)) as (rows & R1 & R2 & R3); [repeat split|].
  rewrite Nat.sub_diag in R1. exists (text_of rows). split; [exact R1|].
  assert (L : lines (text_of rows) = rows).
  { apply lines_text. apply Forall_forall. intros row I. apply In_nth_error in I as (k & K). destruct (R3 k row K) as (cs & C1 & C2 & (C3 & C4 & _)). split; [exact C3|].
    intros ->. pose proof (Forall2_len _ _ _ C4) as C5. change (List.length (words [])) with 0%nat in C5. assert (k < S n)%nat by (rewrite <- R2; apply nth_error_Some; congruence). lia. }
  rewrite L. split; [exact R2|]. intros i I. destruct (nth_error rows i) as [row|] eqn:E; [|apply nth_error_None in E; lia]. exists row. split; [reflexivity|].
  destruct (R3 i row E) as (cs & C1 & C2 & (_ & C4 & _)). rewrite Nat.sub_diag in C1, C2. cbn [Nat.add] in C1, C2. split; [pose proof (Forall2_len _ _ _ C4); lia|]. intros j J.
  destruct (C45_triangle_holds_binomials n N) as (t' & HP' & _ & HT). rewrite HP in HP'. injection HP' as <-. destruct (HT i I) as [_ HE]. destruct (HE j J) as (c & Z & F).
  rewrite C2 in Z by lia. destruct (Forall2_nth _ _ _ C4 j c Z) as (s & S1 & S2). exists c, s. repeat split; assumption.
Qed.
Print Assumptions C250_numbers.
Definition no_ta : option align := None.
Example C250_example : show_triangle true no_ta (fun _ => repeat 0 250) 3 [1; 1; 1; 1; 1; 2; 3; 1; 3; 1] = Ok (lit " 1  1  1  1 " ++ [10] ++ lit " 1  2  3 " ++ [10] ++ lit " 1  3 " ++ [10] ++ lit " 1 " ++ [10]).
Proof. vm_compute. reflexivity. Qed.

(** Up to degree 22, and for degree 25, the numbers stand in columns: each takes 2 + n / 5 characters and a blank. *)
Definition columns (n : nat) (out : list Z) : Prop :=
  forall i row, nth_error (lines out) i = Some row -> Zlen row = (Z.of_nat n + 1 - Z.of_nat i) * (3 + Z.of_nat n / 5).
Theorem C250_columns_partial : forall debug ta conv n t, (n <= 22 \/ n = 25)%nat -> (forall k, Zlen (conv k) = 250) -> pascal n = Ok t ->
  exists out, show_triangle debug ta conv n t = Ok out /\ List.length (lines out) = S n /\ columns n out.
Proof.
  intros debug ta conv n t N HC HP. destruct (rows_show debug conv n t ltac:(lia) HC HP (S n) (FmtModel.fmt_new ta (2 + Z.quot (Z.of_nat n) 5) CentreAlign Dec) [] (le_n _)) as (rows & R1 & R2 & R3); [repeat split|].
  rewrite Nat.sub_diag in R1. exists (text_of rows). split; [exact R1|].
  assert (L : lines (text_of rows) = rows).
  { apply lines_text. apply Forall_forall. intros row I. apply In_nth_error in I as (k & K). destruct (R3 k row K) as (cs & C1 & C2 & (C3 & C4 & _)). split; [exact C3|].
    intros ->. pose proof (Forall2_len _ _ _ C4) as C5. change (List.length (words [])) with 0%nat in C5. assert (k < S n)%nat by (rewrite <- R2; apply nth_error_Some; congruence). lia. }
  unfold columns. rewrite L. split; [exact R2|]. intros i row E. destruct (R3 i row E) as (cs & C1 & C2 & (C3 & C4 & C5)). rewrite Nat.sub_diag in C1, C2. cbn [Nat.add] in C1, C2.
  assert (I : (i < S n)%nat) by (rewrite <- R2; apply nth_error_Some; congruence).
  assert (FIT : Forall (fun s => Zlen s <= 2 + Z.quot (Z.of_nat n) 5) (words row)).
  { rewrite Z.quot_div_nonneg by lia. pose proof (Z.div_pos (Z.of_nat n) 5 ltac:(lia) ltac:(lia)) as DP.
    assert (HF : Forall (fun c => 0 <= c < 10 ^ (2 + Z.of_nat n / 5)) cs).
    { pose proof all_fit as A. rewrite forallb_forall in A. specialize (A n ltac:(destruct N as [N|N]; [right; apply in_seq; lia|left; lia])). rewrite HP, forallb_forall in A.
      pose proof all_small as A'. rewrite forallb_forall in A'. specialize (A' n ltac:(apply in_seq; lia)). rewrite HP, forallb_forall in A'.
      apply Forall_forall. intros c Ic. apply In_nth_error in Ic as (j & J). assert (j < List.length cs)%nat by (apply nth_error_Some; congruence).
      rewrite <- C2 in J by assumption. apply zget_in in J. pose proof (A c J) as A1. pose proof (A' c J) as A2. cbn beta in A1. rewrite Z.quot_div_nonneg in A1 by lia. lia. }
    clear - C4 HF DP. induction C4 as [|c s cs ws H _ IH]; constructor.
    + pose proof (Forall_inv HF) as Hc. cbn beta in Hc. destruct H as [[_ H]|[H _]]; [|lia]. apply (canonical_len c s (2 + Z.of_nat n / 5) H); lia.
    + apply IH. exact (Forall_inv_tail HF). }
  rewrite C5, (overhang_fits _ _ FIT), Z.quot_div_nonneg by lia. unfold Zlen. rewrite C1. nia.
Qed.
Print Assumptions C250_columns_partial.

(** For all other degrees a number is wider than its column: 1352078 = 23!/(11! 12!) does not fit six characters. *)
Lemma some_wide : forallb (fun n => match pascal n with Ok t => match zget t (pascal_begin n (n / 2) + Z.of_nat (n - n / 2)) with Some c => (10 ^ (2 + Z.quot (Z.of_nat n) 5) <=? c) | None => false end | _ => false end) (23%nat :: 24%nat :: seq 26 8) = true.
Proof. vm_compute. reflexivity. Qed.
Theorem C250_columns_exactly : forall debug ta conv n t, (n <= 33)%nat -> (forall k, Zlen (conv k) = 250) -> pascal n = Ok t ->
  exists out, show_triangle debug ta conv n t = Ok out /\ (columns n out <-> (n <= 22 \/ n = 25)%nat).
Proof.
  intros debug ta conv n t N HC HP. destruct (le_gt_dec n 22) as [L|L]; [|destruct (Nat.eq_dec n 25) as [->|N25]].
  - destruct (C250_columns_partial debug ta conv n t (or_introl L) HC HP) as (out & H & _ & C). exists out. tauto.
  - destruct (C250_columns_partial debug ta conv 25 t (or_intror eq_refl) HC HP) as (out & H & _ & C). exists out. tauto.
  - destruct (rows_show debug conv n t N HC HP (S n) (FmtModel.fmt_new ta (2 + Z.quot (Z.of_nat n) 5) CentreAlign Dec) [] (le_n _)) as (rows & R1 & R2 & R3); [repeat split|].
    rewrite Nat.sub_diag in R1. exists (text_of rows). split; [exact R1|]. split; [|lia]. intros C. exfalso.
    assert (LL : lines (text_of rows) = rows).
    { apply lines_text. apply Forall_forall. intros row I. apply In_nth_error in I as (k & K). destruct (R3 k row K) as (cs & C1 & C2 & (C3 & C4 & _)). split; [exact C3|].
      intros ->. pose proof (Forall2_len _ _ _ C4) as C5. change (List.length (words [])) with 0%nat in C5. assert (k < S n)%nat by (rewrite <- R2; apply nth_error_Some; congruence). lia. }
    unfold columns in C. rewrite LL in C. set (i := (n / 2)%nat) in *.
    assert (I2 : (2 * i <= n)%nat) by (subst i; pose proof (Nat.div_mod n 2 ltac:(lia)); lia).
    destruct (nth_error rows i) as [row|] eqn:E; [|apply nth_error_None in E; lia]. specialize (C i row E).
    destruct (R3 i row E) as (cs & C1 & C2 & (C3 & C4 & C5)). rewrite Nat.sub_diag in C1, C2. cbn [Nat.add] in C1, C2.
    pose proof some_wide as A. rewrite forallb_forall in A. specialize (A n ltac:(destruct (Nat.eq_dec n 23) as [->|]; [now left|]; destruct (Nat.eq_dec n 24) as [->|]; [right; now left|]; right; right; apply in_seq; lia)).
    cbn beta in A. rewrite HP in A. fold i in A. rewrite C2 in A by lia. destruct (nth_error cs (n - i)) as [c|] eqn:Ec; [|discriminate]. apply Z.leb_le in A.
    destruct (Forall2_nth _ _ _ C4 _ c Ec) as (s & S1 & S2). rewrite Z.quot_div_nonneg in * by lia. pose proof (Z.div_pos (Z.of_nat n) 5 ltac:(lia) ltac:(lia)) as DP.
    assert (W : 2 + Z.of_nat n / 5 < Zlen s).
    { destruct S2 as [[_ S2]|[S2 _]]; [|pose proof (Z.pow_pos_nonneg 10 (2 + Z.of_nat n / 5)); lia]. apply Z.nle_gt. intros K. apply (canonical_len c s (2 + Z.of_nat n / 5) S2) in K; lia. }
    pose proof (overhang_wide _ _ _ (nth_error_In _ _ S1) W) as O. rewrite C5 in C. assert (ZC : Zlen cs = Z.of_nat n + 1 - Z.of_nat i) by (unfold Zlen; rewrite C1; lia). rewrite ZC in C. nia.
Qed.
Print Assumptions C250_columns_exactly.
Theorem C250_columns_refuted : exists n t out, (n <= 33)%nat /\ pascal n = Ok t /\ show_triangle true no_ta (fun _ => repeat 0 250) n t = Ok out /\ ~ columns n out.
Proof.
  exists 23%nat. destruct (pascal 23) as [t| |] eqn:E; [|vm_compute in E; discriminate|vm_compute in E; discriminate]. exists t.
  destruct (C250_columns_exactly true no_ta (fun _ => repeat 0 250) 23 t ltac:(lia) ltac:(reflexivity) E) as (out & H & C). exists out. split; [lia|]. split; [reflexivity|]. split; [exact H|].
  intros D. apply C in D. lia.
Qed.
Print Assumptions C250_columns_refuted.

(** * Pieces *)
Lemma words_blank a b : words (a ++ 32 :: b) = words a ++ words b.
Proof.
  unfold words. assert (G : forall cur, cut 32 cur (a ++ 32 :: b) = cut 32 cur a ++ cut 32 [] b); [|apply G].
  induction a as [|c a IH]; intros cur; cbn [app cut].
  - rewrite Z.eqb_refl. destruct cur; reflexivity.
  - destruct (c =? 32); [rewrite IH; destruct cur; reflexivity|apply IH].
Qed.
Lemma lines_end a b : lines (a ++ 10 :: b) = lines a ++ lines b.
Proof.
  unfold lines. assert (G : forall cur, cut 10 cur (a ++ 10 :: b) = cut 10 cur a ++ cut 10 [] b); [|apply G].
  induction a as [|c a IH]; intros cur; cbn [app cut].
  - rewrite Z.eqb_refl. destruct cur; reflexivity.
  - destruct (c =? 10); [rewrite IH; destruct cur; reflexivity|apply IH].
Qed.
(** What stands for a value in text: not empty, no blank, no end of line. *)
Definition plain (s : list Z) : Prop := s <> [] /\ ~ In 32 s /\ ~ In 10 s.
Lemma words_plain s : plain s -> words s = [s].
Proof. intros (N & H & _). apply cut_last; assumption. Qed.

Definition shown (pf : ftext -> list Z) (p : piece) : list Z := match p with Lit s => s | UInt n => dec n | Num v => pf v end.
Definition steady (f : ffmt) : Prop := no_tmp f /\ q_fixed f = true /\ 0 <= q_prec f.
Definition settings (f : ffmt) := (q_width f, q_prec f, q_align f).
Lemma show_num_ok debug f cells v o : spec_shape cells -> steady f -> lay (Some (q_align f)) (q_width f) (firstn 29 (v (Z.min (q_prec f) 20))) (Zlen (firstn 29 (v (Z.min (q_prec f) 20)))) = Ok o ->
  exists f' cells', show_num debug (f, cells) v = Ok (f', cells', o) /\ spec_shape cells' /\ steady f' /\ settings f' = settings f.
Proof.
  intros HS (HN & HF & HP) HL. unfold show_num. destruct f as [qw qp qa qb tw tp ta tb wt pt at_ bt r x]. unfold no_tmp in HN. cbn [q_fixed q_prec q_width q_align w_tmp p_tmp a_tmp b_tmp] in *. destruct HN as (-> & -> & -> & ->). subst qb.
  destruct (ff_spec_ok cells qp HS HP) as [H1 H2]. unfold ff_print. cbn [ff_val ff_value fready negb ff_cur_fixed ff_cur_prec ff_cur_align ff_cur_width b_tmp p_tmp a_tmp w_tmp q_fixed q_prec q_align q_width fvalue fst snd].
  rewrite H2. cbv beta iota zeta. rewrite HL. cbn [bind fst snd]. do 2 eexists. split; [reflexivity|]. split; [exact H1|]. split; [repeat split; exact HP|reflexivity].
Qed.
Lemma pieces_ok debug pf w p a : (forall v, lay (Some a) w (firstn 29 (v (Z.min p 20))) (Zlen (firstn 29 (v (Z.min p 20)))) = Ok (pf v)) ->
  forall l f cells, spec_shape cells -> steady f -> settings f = (w, p, a) ->
  exists cells', show_pieces debug (f, cells) l = Ok (List.concat (map (shown pf) l), cells') /\ spec_shape cells'.
Proof.
  intros HL. induction l as [|[s|n|v] l IH]; intros f cells HS HT HE; cbn [show_pieces map List.concat shown].
  - exists cells. split; [reflexivity|exact HS].
  - destruct (IH f cells HS HT HE) as (c' & -> & H'). exists c'. split; [reflexivity|exact H'].
  - destruct (IH f cells HS HT HE) as (c' & -> & H'). exists c'. split; [reflexivity|exact H'].
  - unfold settings in HE. injection HE as E1 E2 E3. destruct (show_num_ok debug f cells v (pf v) HS HT) as (f' & c' & -> & H1 & H2 & H3); [rewrite E1, E2, E3; apply HL|]. cbn [bind fst snd].
    destruct (IH f' c' H1 H2) as (c2 & -> & H'); [rewrite H3; unfold settings; congruence|]. exists c2. split; [reflexivity|exact H'].
Qed.
(** Two decimals, no padding; at most 29 characters. *)
Definition short2 (v : ftext) : list Z := firstn 29 (v 2).
Lemma two_ok debug l cells : spec_shape cells -> exists cells', show_pieces debug (two_decimals, cells) l = Ok (List.concat (map (shown short2) l), cells') /\ spec_shape cells'.
Proof.
  intros HS. apply (pieces_ok debug short2 (-1) 2 NoAlign); [|exact HS|repeat split; cbn; lia|reflexivity].
  intros v. change (Z.min 2 20) with 2. fold (short2 v). assert (Zlen (short2 v) <= 29) by (unfold Zlen, short2; pose proof (firstn_le_length 29 (v 2)); lia).
  destruct (lay_ok_any NoAlign (-1) (short2 v)) as (o & H1 & (l' & r & -> & -> & ->)); [unfold in_int, int_min, int_max; pose proof (Zlen_nonneg (short2 v)); lia|].
  rewrite H1. cbn [repeat app]. rewrite app_nil_r. reflexivity.
Qed.
(** Three decimals, right aligned in six characters. *)
Definition short3 (v : ftext) : list Z := firstn 29 (v 3).
Definition right6 (v : ftext) : list Z := repeat 32 (6 - List.length (short3 v)) ++ short3 v.
Lemma three_ok debug l cells : spec_shape cells -> exists cells', show_pieces debug (pose_format, cells) l = Ok (List.concat (map (shown right6) l), cells') /\ spec_shape cells'.
Proof.
  intros HS. apply (pieces_ok debug right6 6 3 RightAlign); [|exact HS|repeat split; cbn; lia|reflexivity].
  intros v. change (Z.min 3 20) with 3. fold (short3 v). assert (Zlen (short3 v) <= 29) by (unfold Zlen, short3; pose proof (firstn_le_length 29 (v 3)); lia).
  destruct (lay_ok_any RightAlign 6 (short3 v)) as (o & H1 & (l' & r & -> & -> & E)); [unfold in_int, int_min, int_max; pose proof (Zlen_nonneg (short3 v)); lia|].
  rewrite H1. unfold right6. f_equal. cbn [repeat]. rewrite app_nil_r. cbn [repeat] in E. rewrite app_nil_r, Zlen_app in E. unfold Zlen in E. rewrite repeat_length in E.
  f_equal. f_equal. lia.
Qed.

(** * C251: printed polynomials and splines *)
(** The static cells of the formatter: "%.xff" at first, the last precision written afterwards. *)
Definition cells_ok (cells : list Z) : Prop := exists a b c, cells = [37; 46; a; b; c; 0].
Lemma firstn_plain k s : (0 < k)%nat -> plain s -> plain (firstn k s).
Proof.
  intros K (N & H1 & H2). destruct s as [|c s]; [congruence|]. destruct k as [|k]; [lia|]. split; [discriminate|].
  split; intros I; [apply H1|apply H2]; rewrite <- (firstn_skipn (S k) (c :: s)); apply in_or_app; left; exact I.
Qed.
Lemma dec_numeral n : 0 <= n -> numeral n (dec n).
Proof. intros H. pose proof (num_str_numeral n) as P. unfold num_str in P. destruct (n <? 0) eqn:E; [lia|exact P]. Qed.
Lemma plain_app a b : plain a -> ~ In 32 b -> ~ In 10 b -> plain (a ++ b).
Proof. intros (N & H1 & H2) H3 H4. split; [destruct a; [congruence|discriminate]|]. split; rewrite in_app_iff; tauto. Qed.
Definition term_text (i : Z) (t : list Z) : list Z := t ++ lit "x^" ++ dec i.
Fixpoint term_words (i : Z) (ts : list (list Z)) : list (list Z) := match ts with [] => [] | t :: tl => lit "+" :: term_text i t :: term_words (i + 1) tl end.
Lemma term_plain i t : 0 <= i -> plain t -> plain (term_text i t).
Proof.
  intros I P. unfold term_text. destruct (numeral_chars i (dec i) (dec_numeral i I)) as (H1 & H2 & _). apply plain_app; [exact P| |]; intros J; apply in_app_or in J as [J|J]; try contradiction; cbn in J; intuition discriminate.
Qed.
Lemma terms_words cs : forall i acc, 0 <= i -> Forall (fun v => plain (short2 v)) cs -> plain acc ->
  words (acc ++ List.concat (map (shown short2) (poly_terms i cs))) = acc :: term_words i (map short2 cs).
Proof.
  induction cs as [|c cs IH]; intros i acc I HP HA; cbn [poly_terms map List.concat term_words]; [rewrite app_nil_r; apply words_plain; exact HA|].
  cbn [shown]. change (lit " + ") with ([32] ++ [43] ++ [32]). rewrite <- !app_assoc. cbn [app]. rewrite words_blank, (words_plain acc HA). change (43 :: 32 :: ?x) with ([43] ++ 32 :: x). 
  rewrite words_blank, (words_plain [43]) by (repeat split; cbn; intuition discriminate). cbn [app]. f_equal. f_equal. pose proof (Forall_inv HP) as P1. cbn beta in P1.
  rewrite !app_assoc. rewrite <- (app_assoc (short2 c)). apply IH; [lia|exact (Forall_inv_tail HP)|]. apply (term_plain i (short2 c) I P1).
Qed.
Lemma terms_no10 cs : forall i, 0 <= i -> Forall (fun v => plain (short2 v)) cs -> ~ In 10 (List.concat (map (shown short2) (poly_terms i cs))).
Proof.
  induction cs as [|c cs IH]; intros i I HP; cbn [poly_terms map List.concat shown]; [intros []|]. pose proof (Forall_inv HP) as (_ & _ & P1). destruct (numeral_chars i (dec i) (dec_numeral i I)) as (_ & H2 & _).
  rewrite !in_app_iff. intros [J|[J|[J|[J|J]]]]; [cbn in J; intuition discriminate|exact (P1 J)|cbn in J; intuition discriminate|exact (H2 J)|]. revert J. apply IH; [lia|exact (Forall_inv_tail HP)].
Qed.
Lemma term_words_nth ts : forall i k t, nth_error ts k = Some t -> nth_error (term_words i ts) (2 * k) = Some (lit "+") /\ nth_error (term_words i ts) (2 * k + 1) = Some (term_text (i + Z.of_nat k) t).
Proof.
  induction ts as [|x ts IH]; intros i k t E; [destruct k; discriminate|]. destruct k as [|k]; cbn [nth_error] in E.
  - injection E as ->. cbn [term_words]. rewrite Z.add_0_r. split; reflexivity.
  - destruct (IH (i + 1) k t E) as [H1 H2]. replace (2 * S k)%nat with (S (S (2 * k))) by lia. cbn [term_words nth_error Nat.add]. rewrite H1, H2. split; [reflexivity|]. f_equal. f_equal. lia.
Qed.
Lemma term_words_len ts : forall i, List.length (term_words i ts) = (2 * List.length ts)%nat.
Proof. induction ts as [|x ts IH]; intros i; [reflexivity|]. cbn [term_words List.length]. rewrite IH. lia. Qed.

(** The text of a polynomial with coefficients v_0, ..., v_n, given what "%.2f" makes of each: the words t_0 + t_1x^1 + ... + t_nx^n. *)
Definition fits2 (v : ftext) : Prop := plain (v 2) /\ Zlen (v 2) <= 29.
Lemma fits2_short v : fits2 v -> short2 v = v 2 /\ plain (short2 v).
Proof. intros [P L]. assert (E : short2 v = v 2) by (apply firstn_all2; unfold Zlen in L; lia). rewrite E. auto. Qed.
Theorem C251_poly_words : forall debug cells v0 vs, cells_ok cells -> Forall fits2 (v0 :: vs) ->
  exists out cells', show_poly debug cells (v0 :: vs) = Ok (out, cells') /\ cells_ok cells' /\ ~ In 10 out /\
    List.length (words out) = (1 + 2 * List.length vs)%nat /\ nth_error (words out) 0 = Some (v0 2) /\
    forall i v, nth_error vs i = Some v -> exists e, numeral (Z.of_nat i + 1) e /\ nth_error (words out) (2 * i + 1) = Some (lit "+") /\ nth_error (words out) (2 * i + 2) = Some (v 2 ++ lit "x^" ++ e).
Proof.
  intros debug cells v0 vs HC HF. destruct (two_ok debug (poly_pieces (v0 :: vs)) cells HC) as (c' & H1 & H2). unfold show_poly. rewrite H1. do 2 eexists. split; [reflexivity|]. split; [exact H2|].
  destruct (fits2_short v0 (Forall_inv HF)) as [E0 P0]. assert (PS : Forall (fun v => plain (short2 v)) vs) by (eapply Forall_impl; [|exact (Forall_inv_tail HF)]; intros v F; apply fits2_short; exact F).
  assert (W : words (List.concat (map (shown short2) (poly_pieces (v0 :: vs)))) = v0 2 :: term_words 1 (map short2 vs)).
  { cbn [poly_pieces map List.concat shown]. rewrite terms_words by (assumption || lia). rewrite E0. reflexivity. }
  rewrite W. split; [|split; [|split]].
  - cbn [poly_pieces map List.concat shown]. rewrite in_app_iff. intros [J|J]; [destruct P0 as (_ & _ & P0); exact (P0 J)|revert J; apply terms_no10; [lia|exact PS]].
  - cbn [List.length]. rewrite term_words_len, map_length. reflexivity.
  - reflexivity.
  - intros i v E. exists (dec (1 + Z.of_nat i)). split; [rewrite Z.add_comm; apply dec_numeral; lia|]. destruct (term_words_nth (map short2 vs) 1 i (short2 v)) as [T1 T2]; [rewrite nth_error_map, E; reflexivity|].
    replace (2 * i + 1)%nat with (S (2 * i)) by lia. replace (2 * i + 2)%nat with (S (2 * i + 1)) by lia. cbn [nth_error]. rewrite T1, T2. split; [reflexivity|].
    unfold term_text. rewrite (proj1 (fits2_short v (proj1 (Forall_forall _ _) (Forall_inv_tail HF) v (nth_error_In _ _ E)))). reflexivity.
Qed.
Print Assumptions C251_poly_words.

(** Polynomials of one degree that print alike have the same coefficients to two decimals. *)
Lemma app_same_tail {A} (a b c : list A) : a ++ c = b ++ c -> a = b.
Proof. intros H. apply app_inv_tail in H. exact H. Qed.
Theorem C251_poly_injective : forall debug cells debug' cells' vs ws r r', cells_ok cells -> cells_ok cells' -> Forall fits2 vs -> Forall fits2 ws -> List.length vs = List.length ws ->
  show_poly debug cells vs = Ok r -> show_poly debug' cells' ws = Ok r' -> fst r = fst r' -> map (fun v => v 2) vs = map (fun v => v 2) ws.
Proof.
  intros debug cells debug' cells' vs ws r r' HC HC' HV HW HL H1 H2 HE. destruct vs as [|v0 vs], ws as [|w0 ws]; cbn in HL; try discriminate; [reflexivity|].
  destruct (C251_poly_words debug cells v0 vs HC HV) as (o & k & S1 & _ & _ & _ & A0 & A1). destruct (C251_poly_words debug' cells' w0 ws HC' HW) as (o' & k' & S2 & _ & _ & _ & B0 & B1).
  rewrite S1 in H1. injection H1 as <-. rewrite S2 in H2. injection H2 as <-. cbn [fst] in HE. subst o'. cbn [map]. f_equal; [congruence|].
  assert (G : forall i, option_map (fun v : ftext => v 2) (nth_error vs i) = option_map (fun v : ftext => v 2) (nth_error ws i)).
  { intros i. destruct (nth_error vs i) as [v|] eqn:E; destruct (nth_error ws i) as [w|] eqn:F; cbn [option_map].
    - destruct (A1 i v E) as (e & N1 & _ & T1). destruct (B1 i w F) as (e' & N2 & _ & T2). rewrite (numeral_unique _ _ _ N2 N1) in T2. rewrite T1 in T2. injection T2 as T2. f_equal. exact (app_same_tail _ _ _ T2).
    - apply nth_error_None in F. assert (i < List.length vs)%nat by (apply nth_error_Some; congruence). lia.
    - apply nth_error_None in E. assert (i < List.length ws)%nat by (apply nth_error_Some; congruence). lia.
    - reflexivity. }
  clear - G HL. revert ws HL G. induction vs as [|v vs IH]; intros [|w ws] L G; cbn in L; try lia; [reflexivity|]. cbn [map]. f_equal; [specialize (G 0%nat); cbn in G; congruence|].
  apply IH; [lia|]. intros i. exact (G (S i)).
Qed.
Print Assumptions C251_poly_injective.
(** What "%.pf" makes of a whole number. *)
Definition whole (z : Z) : ftext := fun p => num_str z ++ lit "." ++ repeat 48 (Z.to_nat p).
Definition cells0 : list Z := [37; 46; 120; 102; 102; 0].
Example C251_example : show_poly true cells0 [whole 1; whole (-2); whole 3] = Ok (lit "1.00 + -2.00x^1 + 3.00x^2", [37; 46; 50; 102; 0; 0]) /\ Forall fits2 [whole 1; whole (-2); whole 3].
Proof.
  split; [vm_compute; reflexivity|]. unfold fits2, plain. repeat constructor; try discriminate; try (vm_compute; intuition discriminate).
Qed.
(** Numbers of more than 26 digits lose their last ones: ten times the coefficient prints alike. *)
Theorem C251_poly_refuted : exists a b r, a <> b /\ show_poly true cells0 [whole a] = Ok r /\ show_poly true cells0 [whole b] = Ok r.
Proof. exists (10 ^ 28), (10 ^ 29). eexists. split; [lia|]. split; vm_compute; reflexivity. Qed.
Print Assumptions C251_poly_refuted.

(** ** Splines *)
(** The text a polynomial prints: it does not depend on the build or on what was printed before. *)
Definition poly_text (cs : list ftext) (line : list Z) : Prop := forall debug cells, cells_ok cells -> exists cells', show_poly debug cells cs = Ok (line, cells') /\ cells_ok cells'.
Definition full (cs : list ftext) : Prop := cs <> [] /\ Forall fits2 cs.
Lemma poly_line cs : full cs -> exists line, poly_text cs line /\ line <> [] /\ ~ In 10 line.
Proof.
  intros [N F]. destruct cs as [|v vs]; [congruence|]. exists (List.concat (map (shown short2) (poly_pieces (v :: vs)))). split; [|split].
  - intros debug cells HC. exact (two_ok debug _ cells HC).
  - cbn [poly_pieces map List.concat shown]. destruct (fits2_short v (Forall_inv F)) as [_ (P & _)]. destruct (short2 v); [congruence|discriminate].
  - destruct (C251_poly_words true cells0 v vs) as (o & c & H1 & _ & H2 & _); [do 3 eexists; reflexivity|exact F|]. destruct (two_ok true (poly_pieces (v :: vs)) cells0) as (c' & H3 & _); [do 3 eexists; reflexivity|].
    unfold show_poly in H1. rewrite H3 in H1. injection H1 as <- _. exact H2.
Qed.
(** A cubic spline prints each of its polynomials on a line. *)
Theorem C251_cubic_lines : forall debug cells ps, cells_ok cells -> Forall full ps ->
  exists out cells', show_cubic_spline debug cells ps = Ok (out, cells') /\ Forall2 poly_text ps (lines out).
Proof.
  intros debug cells ps HC HF. revert cells HC. induction HF as [|p ps F _ IH]; intros cells HC; unfold show_cubic_spline in *; cbn [show_lines].
  - do 2 eexists. split; [reflexivity|constructor].
  - destruct (poly_line p F) as (line & L1 & L2 & L3). destruct (L1 debug cells HC) as (c1 & -> & C1). cbn [bind fst snd]. destruct (IH c1 C1) as (o & c2 & -> & G). cbn [bind fst snd].
    do 2 eexists. split; [reflexivity|]. cbn [app]. rewrite lines_end. unfold lines at 1. rewrite cut_last by assumption. constructor; assumption.
Qed.
Print Assumptions C251_cubic_lines.

Lemma element_in {A} debug (l : list A) k a : nth_error l k = Some a -> element debug l (Z.of_nat k) = Ok a.
Proof. intros H. unfold element, zget. destruct (Z.of_nat k <? 0) eqn:E; [lia|]. rewrite Nat2Z.id, H. reflexivity. Qed.
Lemma corners_ok debug segments corners : Forall full segments -> Forall full corners -> List.length segments = S (List.length corners) ->
  forall todo k cells, cells_ok cells -> (k + todo = List.length corners)%nat ->
  exists out cells', show_corners debug cells segments corners todo (Z.of_nat k + 1) = Ok (out, cells') /\ List.length (lines out) = (2 * todo)%nat /\
    forall j c s, (j < todo)%nat -> nth_error corners (k + j) = Some c -> nth_error segments (k + j + 1) = Some s ->
      exists lc ls, nth_error (lines out) (2 * j) = Some lc /\ nth_error (lines out) (2 * j + 1) = Some ls /\ poly_text c lc /\ poly_text s ls.
Proof.
  intros HS HC HL. induction todo as [|todo IH]; intros k cells HK HT; cbn [show_corners].
  - do 2 eexists. split; [reflexivity|]. split; [reflexivity|]. intros; lia.
  - destruct (nth_error corners k) as [c|] eqn:EC; [|apply nth_error_None in EC; lia]. destruct (nth_error segments (S k)) as [s|] eqn:ES; [|apply nth_error_None in ES; lia].
    replace (Z.of_nat k + 1 - 1) with (Z.of_nat k) by lia. rewrite (element_in debug corners k c EC). cbn [bind].
    destruct (poly_line c (proj1 (Forall_forall _ _) HC c (nth_error_In _ _ EC))) as (lc & C1 & C2 & C3). destruct (C1 debug cells HK) as (c1 & -> & K1). cbn [bind fst snd].
    replace (Z.of_nat k + 1) with (Z.of_nat (S k)) by lia. rewrite (element_in debug segments (S k) s ES). cbn [bind].
    destruct (poly_line s (proj1 (Forall_forall _ _) HS s (nth_error_In _ _ ES))) as (ls & S1 & S2 & S3). destruct (S1 debug c1 K1) as (c2 & -> & K2). cbn [bind fst snd].
    destruct (IH (S k) c2 K2 ltac:(lia)) as (o & c3 & -> & L & G). cbn [bind fst snd]. do 2 eexists. split; [reflexivity|].
    assert (W : lines (lc ++ [10] ++ ls ++ [10] ++ o) = lc :: ls :: lines o).
    { cbn [app]. rewrite !lines_end. unfold lines at 1 2. rewrite !cut_last by assumption. reflexivity. }
    rewrite W. split; [cbn [List.length]; lia|]. intros [|j] c' s' J A B.
    + rewrite Nat.add_0_r in A, B. rewrite Nat.add_1_r in B. rewrite EC in A. injection A as <-. rewrite ES in B. injection B as <-. exists lc, ls. repeat split; assumption.
    + replace (k + S j)%nat with (S k + j)%nat in A, B by lia. destruct (G j c' s' ltac:(lia) A B) as (x & y & X & Y & P & Q). exists x, y.
      replace (2 * S j)%nat with (S (S (2 * j))) by lia. cbn [nth_error Nat.add]. repeat split; assumption.
Qed.
(** A smoothed linear spline prints segments and corners in turn: line 2k is segment k, line 2k + 1 is corner k. *)
Theorem C251_smooth_lines : forall debug cells segments corners, cells_ok cells -> Forall full segments -> Forall full corners -> List.length segments = S (List.length corners) ->
  exists out cells', show_smooth_spline debug cells segments corners = Ok (out, cells') /\ List.length (lines out) = (2 * List.length corners + 1)%nat /\
    (forall k s, nth_error segments k = Some s -> exists line, nth_error (lines out) (2 * k) = Some line /\ poly_text s line) /\
    (forall k c, nth_error corners k = Some c -> exists line, nth_error (lines out) (2 * k + 1) = Some line /\ poly_text c line).
Proof.
  intros debug cells segments corners HC HS HK HL. unfold show_smooth_spline. destruct segments as [|s0 segments]; [discriminate|].
  change (element debug (s0 :: segments) 0) with (Ok s0). cbn [bind]. destruct (poly_line s0 (Forall_inv HS)) as (l0 & S1 & S2 & S3). destruct (S1 debug cells HC) as (c1 & -> & K1). cbn [bind fst snd].
  assert (Nat.pred (List.length (s0 :: segments)) = List.length corners) as -> by (cbn in *; lia).
  destruct (corners_ok debug (s0 :: segments) corners HS HK HL (List.length corners) 0 c1 K1 eq_refl) as (o & c2 & H1 & H2 & H3). cbn [Z.of_nat Z.add] in H1. change (Pos.succ _) with 1%positive in H1. rewrite H1. cbn [bind fst snd].
  do 2 eexists. split; [reflexivity|]. assert (W : lines (l0 ++ [10] ++ o) = l0 :: lines o) by (cbn [app]; rewrite lines_end; unfold lines at 1; rewrite cut_last by assumption; reflexivity).
  rewrite W. split; [cbn [List.length]; lia|]. split.
  - intros [|k] s E; cbn [nth_error] in E; [injection E as <-; exists l0; split; [reflexivity|exact S1]|].
    assert (k < List.length corners)%nat by (cbn in HL; assert (k < List.length segments)%nat by (apply nth_error_Some; congruence); lia).
    destruct (nth_error corners k) as [c|] eqn:EC; [|apply nth_error_None in EC; lia].
    destruct (H3 k c s ltac:(lia) EC) as (x & y & X & Y & P & Q); [cbn [Nat.add]; rewrite Nat.add_1_r; exact E|]. exists y. replace (2 * S k)%nat with (S (2 * k + 1)) by lia. split; [exact Y|exact Q].
  - intros k c E. assert (k < List.length corners)%nat by (apply nth_error_Some; congruence).
    destruct (nth_error segments k) as [s|] eqn:ES; [|apply nth_error_None in ES; cbn in HL; lia].
    destruct (H3 k c s ltac:(lia) E) as (x & y & X & Y & P & Q); [cbn [Nat.add]; rewrite Nat.add_1_r; exact ES|]. exists x. replace (2 * k + 1)%nat with (S (2 * k)) by lia. split; [exact X|exact P].
Qed.
Print Assumptions C251_smooth_lines.
Example C251_smooth_example : exists cells', show_smooth_spline false cells0 [[whole 0; whole 1]; [whole 2; whole (-1)]] [[whole 1; whole 0; whole 5]] =
  Ok (lit "0.00 + 1.00x^1" ++ [10] ++ lit "1.00 + 0.00x^1 + 5.00x^2" ++ [10] ++ lit "2.00 + -1.00x^1" ++ [10], cells').
Proof. eexists. vm_compute. reflexivity. Qed.
(** One that was only default constructed has no first segment. *)
Theorem C251_smooth_refuted : forall cells, show_smooth_spline true cells [] [] = Throw OutOfRangeError /\ show_smooth_spline false cells [] [] = UB.
Proof. intros cells. split; reflexivity. Qed.
Print Assumptions C251_smooth_refuted.

(** * C252: printed tension functions *)
(** Brackets match: every closing bracket closes the last one still open, and none is left open. *)
Definition closer (c : Z) : option Z := if c =? 40 then Some 41 else if c =? 91 then Some 93 else if c =? 123 then Some 125 else None.
Definition is_closer (c : Z) : bool := (c =? 41) || (c =? 93) || (c =? 125).
Fixpoint brackets (open s : list Z) : option (list Z) :=
  match s with
  | [] => Some open
  | c :: tl =>
      match closer c with
      | Some d => brackets (d :: open) tl
      | None => if is_closer c then match open with d :: o => if d =? c then brackets o tl else None | [] => None end else brackets open tl
      end
  end.
Definition balanced (s : list Z) : Prop := brackets [] s = Some [].
Definition bracket (c : Z) : bool := is_closer c || match closer c with Some _ => true | None => false end.
Definition bracketless (s : list Z) : Prop := forall c, In c s -> bracket c = false.
Lemma brackets_app a b : forall open, brackets open (a ++ b) = match brackets open a with Some o => brackets o b | None => None end.
Proof.
  induction a as [|c a IH]; intros open; [reflexivity|]. cbn [app brackets]. destruct (closer c); [apply IH|]. destruct (is_closer c); [|apply IH]. destruct open as [|d o]; [reflexivity|]. destruct (d =? c); [apply IH|reflexivity].
Qed.
Lemma brackets_none s : bracketless s -> forall open, brackets open s = Some open.
Proof.
  induction s as [|c s IH]; intros H open; [reflexivity|]. cbn [brackets]. pose proof (H c (or_introl eq_refl)) as B. unfold bracket in B. apply orb_false_iff in B as [B1 B2].
  destruct (closer c); [discriminate|]. rewrite B1. apply IH. intros x I. apply H. right. exact I.
Qed.
Definition numbers (g : tensf) : list ftext := [f_z0 g; f_zf g; f_x0 g; f_xf g; f_h g; f_y0h g; f_yfh g; f_z0h g; f_zfh g].
(** Whatever the numbers, the brackets match except when z_0 is not zero and z_f is. *)
Theorem C252_brackets_partial : forall debug cells g, cells_ok cells -> Forall (fun v : ftext => bracketless (v 2)) (numbers g) ->
  exists out cells', show_tension debug cells g = Ok (out, cells') /\ cells_ok cells' /\ (balanced out <-> z0_zero g = true \/ zf_zero g = false).
Proof.
  intros debug cells g HC HF. destruct (two_ok debug (tension_pieces g) cells HC) as (c' & H1 & H2). unfold show_tension. rewrite H1. do 2 eexists. split; [reflexivity|]. split; [exact H2|].
  assert (N : forall v, In v (numbers g) -> forall open, brackets open (short2 v) = Some open).
  { intros v I. apply brackets_none. rewrite Forall_forall in HF. intros c J. apply (HF v I c). rewrite <- (firstn_skipn 29 (v 2)). apply in_or_app. left. exact J. }
  unfold balanced, tension_pieces. destruct (z0_zero g), (zf_zero g); cbn [andb app map List.concat shown];
    repeat (try match goal with |- context [brackets ?o (10 :: ?x)] => change (brackets o (10 :: x)) with (brackets o x) end; rewrite brackets_app; first [rewrite N by (cbn; tauto) | match goal with |- context [match brackets ?o (lit ?s ++ ?x) with _ => _ end] => let v := eval vm_compute in (brackets o (lit s ++ x)) in change (brackets o (lit s ++ x)) with v | |- context [match brackets ?o (lit ?s) with _ => _ end] => let v := eval vm_compute in (brackets o (lit s)) in change (brackets o (lit s)) with v | |- context [match brackets ?o [10] with _ => _ end] => change (brackets o [10]) with (Some o) end]; cbv beta iota);
    cbn [brackets]; intuition discriminate.
Qed.
Print Assumptions C252_brackets_partial.
(** Then a brace is left open and the divisor of the first part is missing. *)
Definition a_tension (z0 zf : Z) : tensf := mkTF (whole z0) (whole zf) (whole 0) (whole 1) (whole 1) (whole 2) (whole 3) (whole z0) (whole zf) (z0 =? 0) (zf =? 0).
Theorem C252_brackets_refuted : exists g out, z0_zero g = false /\ zf_zero g = true /\
  show_tension true cells0 g = Ok (out, [37; 46; 50; 102; 0; 0]) /\ ~ balanced out /\ out = lit "{5.00*sinh[tau(1.00-x)] + " ++ [10] ++ lit "        + (2.00-5.00/tau^2)(1.00-x)" ++ [10] ++ lit "                    + (3.00-0.00/tau^2)(x-0.00)" ++ [10].
Proof. exists (a_tension 5 0). eexists. split; [reflexivity|]. split; [reflexivity|]. split; [vm_compute; reflexivity|]. split; [intros H; vm_compute in H; discriminate|reflexivity]. Qed.
Print Assumptions C252_brackets_refuted.
Example C252_example : show_tension true cells0 (a_tension 5 7) = Ok (lit "{5.00*sinh[tau(1.00-x)] + 7.00*sinh[tau(x-0.00)]}/[tau^2 sinh(1.00*tau)]" ++ [10] ++ lit "        + (2.00-5.00/tau^2)(1.00-x)" ++ [10] ++ lit "                    + (3.00-7.00/tau^2)(x-0.00)" ++ [10], [37; 46; 50; 102; 0; 0]).
Proof. vm_compute. reflexivity. Qed.

(** * C253: printed arrays, stencils, points and poses *)
Lemma nth_firstn {A} (l : list A) : forall n k, (k < n)%nat -> nth_error (firstn n l) k = nth_error l k.
Proof. induction l as [|x l IH]; intros n k K; destruct n as [|n]; try lia; [destruct k; reflexivity|]. destruct k as [|k]; [reflexivity|]. cbn. apply IH. lia. Qed.
Lemma nth_skipn {A} n : forall (l : list A) k, nth_error (skipn n l) k = nth_error l (n + k).
Proof. induction n as [|n IH]; intros l k; [reflexivity|]. destruct l as [|x l]; [destruct k; reflexivity|]. cbn. apply IH. Qed.
Lemma sp s : lit " " ++ s = 32 :: s. Proof. reflexivity. Qed.
Lemma words_open s : words (lit "[ " ++ s) = lit "[" :: words s.
Proof. change (lit "[ " ++ s) with ([91] ++ 32 :: s). rewrite words_blank. reflexivity. Qed.
Lemma loop_words get ts : Forall plain ts -> forall i, (forall k t, nth_error ts k = Some t -> get (i + Z.of_nat k) = Ok t) ->
  exists out, array_loop get (List.length ts) i = Ok out /\ words out = ts ++ [lit "]"].
Proof.
  induction 1 as [|t ts P _ IH]; intros i G; cbn [List.length array_loop]; [exists (lit "]"); split; reflexivity|].
  pose proof (G 0%nat t eq_refl) as G0. rewrite Z.add_0_r in G0. rewrite G0. cbn [bind]. destruct (IH (i + 1)) as (o & -> & W).
  { intros k x E. specialize (G (S k) x E). rewrite <- G. f_equal. lia. }
  cbn [bind]. eexists. split; [reflexivity|]. change (t ++ lit " " ++ o) with (t ++ 32 :: o). rewrite words_blank, (words_plain t P), W. reflexivity.
Qed.
(** The words of a printed array: a bracket, the elements in order, a bracket. *)
Theorem C253_array : forall debug ts, Forall plain ts -> exists out, show_array debug ts = Ok out /\ words out = lit "[" :: ts ++ [lit "]"].
Proof.
  intros debug ts P. unfold show_array. destruct (loop_words (element debug ts) ts P 0) as (o & -> & W); [intros k t E; apply element_in; exact E|]. cbn [bind]. eexists. split; [reflexivity|]. rewrite words_open, W. reflexivity.
Qed.
Print Assumptions C253_array.
(** A stencil that lies in its array prints that part of it. *)
Theorem C253_stencil_partial : forall debug a s, Forall plain a -> 0 <= s_b s <= s_e s -> s_e s <= Zlen a ->
  exists out, show_stencil debug a s = Ok out /\ words out = lit "[" :: firstn (Z.to_nat (s_e s - s_b s)) (skipn (Z.to_nat (s_b s)) a) ++ [lit "]"].
Proof.
  intros debug a s P H1 H2. unfold show_stencil, sten_size. set (ts := firstn (Z.to_nat (s_e s - s_b s)) (skipn (Z.to_nat (s_b s)) a)).
  assert (L : List.length ts = Z.to_nat (s_e s - s_b s)) by (subst ts; rewrite firstn_length, skipn_length; unfold Zlen in H2; lia).
  assert (PT : Forall plain ts).
  { apply Forall_forall. intros t I. rewrite Forall_forall in P. apply P. subst ts. rewrite <- (firstn_skipn (Z.to_nat (s_b s)) a). apply in_or_app. right. rewrite <- (firstn_skipn (Z.to_nat (s_e s - s_b s)) (skipn (Z.to_nat (s_b s)) a)). apply in_or_app. left. exact I. }
  destruct (loop_words (sten_get debug a s) ts PT 0) as (o & H & W).
  { intros k t E. assert (K : (k < List.length ts)%nat) by (apply nth_error_Some; congruence). rewrite L in K. unfold sten_get.
    assert (T : zget a (s_b s + (0 + Z.of_nat k)) = Some t).
    { unfold zget. destruct (s_b s + (0 + Z.of_nat k) <? 0) eqn:E0; [lia|]. rewrite <- E. subst ts. rewrite nth_firstn by exact K. rewrite nth_skipn. f_equal. lia. }
    rewrite T. unfold assert_throw. destruct (0 <=? s_b s + (0 + Z.of_nat k)) eqn:E1; [|lia]. destruct (s_b s + (0 + Z.of_nat k) <=? Zlen a) eqn:E2; [|lia]. destruct debug; reflexivity. }
  destruct (s_e s - s_b s <? 0) eqn:E0; [lia|]. rewrite L in H. rewrite H. cbn [bind]. eexists. split; [reflexivity|]. rewrite words_open, W. reflexivity.
Qed.
Print Assumptions C253_stencil_partial.
(** In a release build one can be made that reaches past the end; in every build one can be made whose end precedes its beginning. *)
Theorem C253_stencil_refuted : exists a s, Forall plain a /\
  (sten_ctor false (Zlen a) 0 5 = Ok s /\ show_stencil false a s = UB) /\
  (forall debug, exists s', sten_ctor debug (Zlen a) 2 1 = Ok s' /\ show_stencil debug a s' = UB).
Proof.
  exists [lit "7"; lit "8"], (mkSten 0 5). split; [repeat constructor; try discriminate; cbn; intuition discriminate|]. split; [split; vm_compute; reflexivity|].
  intros debug. exists (mkSten 2 1). split; destruct debug; vm_compute; reflexivity.
Qed.
Print Assumptions C253_stencil_refuted.
(** None that reaches outside prints anything. *)
Lemma loop_bad get n : forall i, (exists k, (k < n)%nat /\ (forall t, get (i + Z.of_nat k) <> Ok t)) -> forall out, array_loop get n i <> Ok out.
Proof.
  induction n as [|n IH]; intros i (k & K & H) out E; [lia|]. cbn [array_loop] in E. destruct k as [|k].
  - rewrite Z.add_0_r in H. destruct (get i) as [t| |]; cbn [bind] in E; try discriminate. exact (H t eq_refl).
  - destruct (get i) as [t| |]; cbn [bind] in E; try discriminate. destruct (array_loop get n (i + 1)) as [r| |] eqn:R; cbn [bind] in E; try discriminate.
    revert R. apply IH. exists k. split; [lia|]. replace (i + 1 + Z.of_nat k) with (i + Z.of_nat (S k)) by lia. exact H.
Qed.
Theorem C253_stencil_outside : forall debug a s, 0 <= s_b s <= Zlen a -> s_e s < s_b s \/ Zlen a < s_e s -> forall out, show_stencil debug a s <> Ok out.
Proof.
  intros debug a s HB HE out E. unfold show_stencil in E. match type of E with bind (array_loop ?g ?n 0) _ = _ => assert (X : forall o, array_loop g n 0 <> Ok o) end.
  { apply loop_bad. exists (Z.to_nat (Zlen a - s_b s)). split.
    - unfold sten_size. destruct (s_e s - s_b s <? 0) eqn:N; lia.
    - intros t. unfold sten_get. assert (N : zget a (s_b s + (0 + Z.of_nat (Z.to_nat (Zlen a - s_b s)))) = None).
      { unfold zget. destruct (s_b s + _ <? 0); [reflexivity|]. apply nth_error_None. unfold Zlen in *. lia. }
      rewrite N. unfold assert_throw. destruct debug; cbn; repeat match goal with |- context [if ?b then _ else _] => destruct b end; discriminate. }
  match type of E with bind ?x _ = _ => destruct x as [o| |] end; cbn [bind] in E; try discriminate. exact (X o eq_refl).
Qed.
Print Assumptions C253_stencil_outside.

Theorem C253_points : forall x y z, plain x -> plain y -> plain z -> words (show_point3 x y z) = [lit "["; x; y; z; lit "]"] /\ words (show_point2 x y) = [lit "["; x; y; lit "]"].
Proof.
  intros x y z X Y Z. unfold show_point3, show_point2. rewrite !words_open. rewrite !sp. change (lit " ]") with (32 :: lit "]"). rewrite !words_blank, !(words_plain _ X), !(words_plain _ Y), (words_plain _ Z). split; reflexivity.
Qed.
Print Assumptions C253_points.

Definition fits3 (v : ftext) : Prop := plain (v 3) /\ Zlen (v 3) <= 29.
Lemma words_lead n s : words (repeat 32 n ++ s) = words s.
Proof. apply cut_seps. Qed.
Lemma right6_words v : fits3 v -> words (right6 v) = [v 3].
Proof. intros [P L]. unfold right6. rewrite words_lead. assert (E : short3 v = v 3) by (apply firstn_all2; unfold Zlen in L; lia). rewrite E. apply words_plain. exact P. Qed.
(** A planar pose prints position and heading to three decimals. *)
Theorem C253_pose2 : forall debug cells x y h, cells_ok cells -> fits3 x -> fits3 y -> fits3 h ->
  exists out cells', show_pose2 debug cells x y h = Ok (out, cells') /\ cells_ok cells' /\ words out = [lit "["; x 3; y 3; h 3; lit "]"].
Proof.
  intros debug cells x y h HC X Y H. unfold show_pose2. edestruct (three_ok debug) as (c' & -> & H'); [exact HC|]. do 2 eexists. split; [reflexivity|]. split; [exact H'|].
  cbn [map List.concat shown]. rewrite words_open. rewrite !sp. change (lit " ]" ++ []) with (32 :: lit "]"). rewrite !words_blank, (right6_words _ X), (right6_words _ Y), (right6_words _ H). reflexivity.
Qed.
Print Assumptions C253_pose2.

(** A spatial pose prints three lines: a row of the rotation and an element of the translation each; columns line up if no number needs more than six characters. *)
Definition fits_row (p : list ftext * ftext) : Prop := List.length (fst p) = 3%nat /\ Forall fits3 (fst p) /\ fits3 (snd p).
Definition row_words (p : list ftext * ftext) : list (list Z) := lit "[" :: map (fun v => v 3) (fst p) ++ [lit "]"; lit "["; snd p 3; lit "]"].
Lemma in_right6 v : fits3 v -> ~ In 10 (right6 v).
Proof. intros [(_ & _ & P) L] I. unfold right6 in I. assert (E : short3 v = v 3) by (apply firstn_all2; unfold Zlen in L; lia). rewrite E in I. apply in_app_or in I as [I|I]; [exact (no10 _ I)|exact (P I)]. Qed.
Lemma right6_len v : Zlen (v 3) <= 6 -> Zlen (right6 v) = 6.
Proof. intros L. unfold right6. assert (E : short3 v = v 3) by (apply firstn_all2; unfold Zlen in L; lia). rewrite E, Zlen_app. unfold Zlen in *. rewrite repeat_length. lia. Qed.
Lemma pose_row p : fits_row p -> exists line, List.concat (map (shown right6) (row_pieces (fst p) (snd p))) = line ++ [10] /\ line <> [] /\ ~ In 10 line /\ words line = row_words p /\
  (Forall (fun v : ftext => Zlen (v 3) <= 6) (snd p :: fst p) -> Zlen line = 35).
Proof.
  intros (L & F & T). destruct p as [[|a [|b [|c [|]]]] t]; cbn [fst snd] in *; try discriminate. pose proof (Forall_inv F) as A. pose proof (Forall_inv (Forall_inv_tail F)) as B. pose proof (Forall_inv (Forall_inv_tail (Forall_inv_tail F))) as C.
  exists (lit "[ " ++ right6 a ++ lit " " ++ right6 b ++ lit " " ++ right6 c ++ lit " " ++ lit "] [ " ++ right6 t ++ lit " ]"). split; [cbn [row_pieces flat_map map List.concat shown app]; rewrite <- !app_assoc, app_nil_r; reflexivity|].
  split; [discriminate|]. split; [|split].
  - rewrite !in_app_iff. pose proof (in_right6 a A). pose proof (in_right6 b B). pose proof (in_right6 c C). pose proof (in_right6 t T). cbn. intuition discriminate.
  - rewrite words_open. unfold row_words. cbn [map fst snd app]. f_equal. rewrite !sp. change (lit " ]") with (32 :: lit "]").
    change (lit "] [ " ++ ?s) with (lit "]" ++ 32 :: lit "[" ++ 32 :: s). rewrite !words_blank, (right6_words _ A), (right6_words _ B), (right6_words _ C), (right6_words _ T). reflexivity.
  - intros W. rewrite !Zlen_app. inversion W as [|? ? W0 W1]; subst. inversion W1 as [|? ? W2 W3]; subst. inversion W3 as [|? ? W4 W5]; subst. inversion W5 as [|? ? W6 _]; subst. rewrite !right6_len by assumption. reflexivity.
Qed.
Theorem C253_pose3 : forall debug cells rows, cells_ok cells -> Forall fits_row rows ->
  exists out cells', show_pose3 debug cells rows = Ok (out, cells') /\ cells_ok cells' /\ map words (lines out) = map row_words rows /\
    (Forall (fun p => Forall (fun v : ftext => Zlen (v 3) <= 6) (snd p :: fst p)) rows -> Forall (fun line => Zlen line = 35) (lines out)).
Proof.
  intros debug cells rows HC HR. unfold show_pose3. edestruct (three_ok debug) as (c' & -> & H'); [exact HC|]. do 2 eexists. split; [reflexivity|]. split; [exact H'|]. clear - HR.
  induction HR as [|p rows F _ [IH1 IH2]]; [split; [reflexivity|constructor]|]. cbn [flat_map]. rewrite map_app, concat_app. destruct (pose_row p F) as (line & -> & N & H10 & W & L).
  rewrite <- app_assoc. cbn [app]. rewrite lines_end. unfold lines at 1 3. rewrite cut_last by assumption. cbn [app map]. split; [f_equal; assumption|].
  intros A. constructor; [apply L; exact (Forall_inv A)|apply IH2; exact (Forall_inv_tail A)].
Qed.
Print Assumptions C253_pose3.
Example C253_pose3_example : show_pose3 true cells0 [([whole 1; whole 0; whole 0], whole 12); ([whole 0; whole 1; whole 0], whole (-3)); ([whole 0; whole 0; whole 1], whole 0)] =
  Ok (lit "[  1.000  0.000  0.000 ] [ 12.000 ]" ++ [10] ++ lit "[  0.000  1.000  0.000 ] [ -3.000 ]" ++ [10] ++ lit "[  0.000  0.000  1.000 ] [  0.000 ]" ++ [10], [37; 46; 51; 102; 0; 0]).
Proof. vm_compute. reflexivity. Qed.
Example C253_array_example : show_array true [lit "1"; lit "22"] = Ok (lit "[ 1 22 ]") /\ show_stencil true [lit "1"; lit "22"; lit "3"] (mkSten 1 3) = Ok (lit "[ 22 3 ]").
Proof. split; vm_compute; reflexivity. Qed.
