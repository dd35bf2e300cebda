(** Lemmas on the formatters of containers, matrices and transforms. *)
From Coq Require Import Reals Lra.
From Flocq Require Import Core.
From Verif Require Import Base Numerals ConvModel StreamModel FmtModel FmtProofs CFmtModel.
Open Scope Z_scope.

(** * One number in a cell *)

Definition settings (f : ffmt) (p w : Z) (a : align) : Prop :=
  no_tmp f /\ q_fixed f = true /\ q_prec f = p /\ q_width f = w /\ q_align f = a.
Definition cell (a : align) (w p : Z) (v : fval) : res (list Z) :=
  let s := firstn 29 (text_of v (Z.min p 20)) in lay (Some a) w s (Zlen s).
Lemma print_cell debug spec f p w a v : settings f p w a -> 0 <= p -> spec_shape spec ->
  match cell a w p v with
  | Ok o => exists f' spec', ff_print debug spec (ff_val f (text_of v)) = Ok (f', o, spec') /\ settings f' p w a /\ spec_shape spec'
  | Throw e => ff_print debug spec (ff_val f (text_of v)) = Throw e
  | UB => ff_print debug spec (ff_val f (text_of v)) = UB
  end.
Proof.
  intros (N & Fx & Hp & Hw & Ha) P S. destruct f as [qw qp qa qb tw tp ta tb wt pt at_ bt r x]. unfold no_tmp in N. cbn [q_fixed q_prec q_width q_align w_tmp p_tmp a_tmp b_tmp] in *. destruct N as (-> & -> & -> & ->). subst.
  unfold ff_print. cbn [ff_val ff_value fready negb ff_cur_fixed ff_cur_prec ff_cur_align ff_cur_width b_tmp p_tmp a_tmp w_tmp q_fixed q_prec q_align q_width fvalue].
  destruct (ff_spec_ok spec p S P) as [H1 H2]. rewrite H2. cbv beta iota zeta. unfold cell. destruct (lay _ _ _ _) as [o|e|]; cbn [bind fst snd]; [|reflexivity|reflexivity].
  do 2 eexists. split; [reflexivity|]. unfold settings, no_tmp. cbn. auto 10.
Qed.
Lemma settings_prec f p w a p' : settings f p w a -> 0 <= p' < 2 ^ 31 -> settings (ff_prec f p') p' w a.
Proof.
  intros (N & Fx & Hp & Hw & Ha) P. destruct f as [qw qp qa qb tw tp ta tb wt pt at_ bt r x]. unfold no_tmp in N. cbn [q_fixed q_prec q_width q_align w_tmp p_tmp a_tmp b_tmp] in *. destruct N as (-> & -> & -> & ->). subst.
  unfold ff_prec. rewrite wrap32_id by exact P. unfold settings, no_tmp. cbn. auto 10.
Qed.
Lemma settings_width f p w a w' : settings f p w a -> settings (ff_width f w') p w' (if (w' >? 0) && is_none a then RightAlign else a).
Proof.
  intros (N & Fx & Hp & Hw & Ha). destruct f as [qw qp qa qb tw tp ta tb wt pt at_ bt r x]. unfold no_tmp in N. cbn [q_fixed q_prec q_width q_align w_tmp p_tmp a_tmp b_tmp] in *. destruct N as (-> & -> & -> & ->). subst.
  unfold ff_width. cbn. destruct ((w' >? 0) && is_none a); unfold settings, no_tmp; cbn; auto 10.
Qed.
Lemma settings_cur f p w a : settings f p w a -> ff_cur_prec f = p /\ ff_cur_width f = w.
Proof. intros ((W & P & _) & _ & Hp & Hw & _). unfold ff_cur_prec, ff_cur_width. rewrite W, P. auto. Qed.

(** * Containers *)

Fixpoint cells (a : align) (w p : Z) (l : list fval) (after : list Z) : res (list Z) :=
  match l with [] => Ok [] | v :: tl => o <- cell a w p v ;; o2 <- cells a w p tl after ;; Ok (o ++ after ++ o2) end.
Lemma print_cells debug p w a after : 0 <= p -> forall l spec f, settings f p w a -> spec_shape spec ->
  match cells a w p l after with
  | Ok o => exists f' spec', print_all debug spec f l after = Ok (f', o, spec') /\ settings f' p w a /\ spec_shape spec'
  | Throw e => print_all debug spec f l after = Throw e
  | UB => print_all debug spec f l after = UB
  end.
Proof.
  intros P. induction l as [|v l IH]; intros spec f F S; [cbn; eauto|]. cbn [cells print_all]. pose proof (print_cell debug spec f p w a v F P S) as H.
  destruct (cell a w p v) as [o|e|]; cbn [bind]; [|now rewrite H|now rewrite H]. destruct H as (f1 & s1 & E & F1 & S1). rewrite E. cbn [bind].
  specialize (IH s1 f1 F1 S1). destruct (cells a w p l after) as [o2|e|]; cbn [bind]; [|now rewrite IH|now rewrite IH].
  destruct IH as (f2 & s2 & E2 & F2 & S2). rewrite E2. cbn [bind]. eauto.
Qed.
(** The text of a container with precision p and width w (or automatic width). *)
Definition shown (debug : bool) (p w : Z) (l : list fval) : res (list Z) :=
  w' <- (if w =? -1 then
           match l with
           | [] => if debug then Throw OutOfRangeError else UB
           | v :: tl => Ok (digits p (fst (extremes tl (num v) (num v))) (snd (extremes tl (num v) (num v))))
           end else Ok w) ;;
  o <- cells RightAlign w' p l [32] ;; Ok ([91; 32] ++ o ++ [93]).
Definition kept (f : cfmt) (p w : Z) : Prop :=
  c_old f = -1 /\ c_pw f = w /\ c_wtmp f = false /\ exists w', settings (c_fmt f) p w' RightAlign.
Lemma print_fmt debug spec f p w old l f0 : f0 = c_fmt f -> (exists w', settings f0 p w' RightAlign) -> 0 <= p -> spec_shape spec ->
  c_ready f = true -> c_cont f = Some l -> w = (if c_wtmp f then c_tw f else c_pw f) -> old = (if c_old f =? -1 then p else c_old f) -> 0 <= old < 2 ^ 31 ->
  match shown debug p w l with
  | Ok o => exists f' spec', cf_print debug spec f = Ok (f', o, spec') /\ kept f' old (c_pw f) /\ spec_shape spec'
  | Throw e => cf_print debug spec f = Throw e
  | UB => cf_print debug spec f = UB
  end.
Proof.
  intros -> (w0 & F) P S R C Hw Ho OB. unfold cf_print, shown. rewrite R, C, andb_false_r. rewrite <- Hw. destruct (settings_cur _ _ _ _ F) as [CP _]. rewrite CP.
  assert (FINISH : forall w1, match cells RightAlign w1 p l [32] with
    | Ok o => exists f' spec', (r <- print_all debug spec (ff_width (c_fmt f) w1) l [32] ;;
        let '(fm1, out, spec1) := r in
        let fm2 := if c_old f =? -1 then fm1 else ff_prec fm1 (c_old f) in
        Ok (mkCF (-1) (c_tw f) (c_pw f) false fm2 (Some l) false, [91; 32] ++ out ++ [93], spec1)) = Ok (f', [91; 32] ++ o ++ [93], spec') /\ kept f' old (c_pw f) /\ spec_shape spec'
    | Throw e => (r <- print_all debug spec (ff_width (c_fmt f) w1) l [32] ;;
        let '(fm1, out, spec1) := r in
        let fm2 := if c_old f =? -1 then fm1 else ff_prec fm1 (c_old f) in
        Ok (mkCF (-1) (c_tw f) (c_pw f) false fm2 (Some l) false, [91; 32] ++ out ++ [93], spec1)) = Throw e
    | UB => (r <- print_all debug spec (ff_width (c_fmt f) w1) l [32] ;;
        let '(fm1, out, spec1) := r in
        let fm2 := if c_old f =? -1 then fm1 else ff_prec fm1 (c_old f) in
        Ok (mkCF (-1) (c_tw f) (c_pw f) false fm2 (Some l) false, [91; 32] ++ out ++ [93], spec1)) = UB
    end).
  { intros w1. pose proof (settings_width _ _ _ _ w1 F) as F1. cbn [is_none] in F1. rewrite andb_false_r in F1.
    pose proof (print_cells debug p w1 RightAlign [32] P l spec _ F1 S) as H. destruct (cells RightAlign w1 p l [32]) as [o|e|]; [|now rewrite H|now rewrite H].
    destruct H as (f' & s' & E & F' & S'). rewrite E. cbn [bind]. do 2 eexists. split; [reflexivity|]. split; [|exact S'].
    unfold kept. cbn [c_old c_pw c_wtmp c_fmt]. repeat split; auto. exists w1. destruct (c_old f =? -1) eqn:EO; [now rewrite Ho|]. rewrite Ho in *. now apply settings_prec with p. }
  destruct (w =? -1).
  - destruct l as [|v tl]; [destruct debug; reflexivity|]. destruct (extremes tl (num v) (num v)) as [mn mx] eqn:EX. cbn [bind fst snd].
    specialize (FINISH (digits p mn mx)). destruct (cells RightAlign (digits p mn mx) p (v :: tl) [32]) as [o|e|]; cbn [bind]; exact FINISH.
  - cbn [bind]. specialize (FINISH w). destruct (cells RightAlign w p l [32]) as [o|e|]; cbn [bind]; exact FINISH.
Qed.

(** * Programs with one container formatter *)

Inductive cstep := CPrec (p : Z) | CWidth (w : Z) | CSet (p w : Z) | CShow (l : list fval) | CShowTmp (l : list fval) (p w : Z).
Definition cstep_ok (s : cstep) : Prop := match s with CPrec p | CSet p _ | CShowTmp _ p _ => 0 <= p < 2 ^ 31 | _ => True end.
(** The formatter is called and streamed in one expression. *)
Fixpoint crun (debug : bool) (spec : list Z) (f : cfmt) (l : list cstep) : res (list (list Z)) :=
  match l with
  | [] => Ok []
  | CPrec p :: tl => crun debug spec (cf_precision f p) tl
  | CWidth w :: tl => crun debug spec (cf_width f w) tl
  | CSet p w :: tl => crun debug spec (cf_set f p w) tl
  | CShow c :: tl => r <- cf_print debug spec (cf_call f c) ;; o <- crun debug (snd r) (fst (fst r)) tl ;; Ok (snd (fst r) :: o)
  | CShowTmp c p w :: tl => r <- cf_print debug spec (cf_tmp f c p w) ;; o <- crun debug (snd r) (fst (fst r)) tl ;; Ok (snd (fst r) :: o)
  end.
(** Every text by a formatter of its own. *)
Definition fresh_text (debug : bool) (p w : Z) (c : list fval) : res (list Z) :=
  r <- cf_print debug ff_spec0 (cf_call (cf_new p w) c) ;; Ok (snd (fst r)).
Fixpoint cfresh (debug : bool) (p w : Z) (l : list cstep) : res (list (list Z)) :=
  match l with
  | [] => Ok []
  | CPrec p' :: tl => cfresh debug p' w tl
  | CWidth w' :: tl => cfresh debug p w' tl
  | CSet p' w' :: tl => cfresh debug p' w' tl
  | CShow c :: tl => t <- fresh_text debug p w c ;; o <- cfresh debug p w tl ;; Ok (t :: o)
  | CShowTmp c p' w' :: tl => t <- fresh_text debug p' w' c ;; o <- cfresh debug p w tl ;; Ok (t :: o)
  end.
Lemma fresh_shown debug p w c : 0 <= p < 2 ^ 31 -> fresh_text debug p w c = shown debug p w c.
Proof.
  intros P. unfold fresh_text.
  assert (F : exists w', settings (c_fmt (cf_call (cf_new p w) c)) p w' RightAlign) by (exists w; unfold settings, no_tmp; cbn; auto 10).
  pose proof (print_fmt debug ff_spec0 (cf_call (cf_new p w) c) p w p c _ eq_refl F ltac:(lia) spec0_shape eq_refl eq_refl eq_refl eq_refl P) as H.
  destruct (shown debug p w c) as [o|e|]; [|now rewrite H|now rewrite H]. destruct H as (f' & s' & E & _). rewrite E. reflexivity.
Qed.
Lemma crun_fresh debug : forall l spec f p w, kept f p w -> 0 <= p < 2 ^ 31 -> spec_shape spec -> Forall cstep_ok l -> crun debug spec f l = cfresh debug p w l.
Proof.
  induction l as [|s l IH]; intros spec f p w K P S A; [reflexivity|]. apply Forall_cons_iff in A as [A1 A2]. destruct K as (K1 & K2 & K3 & w0 & K4).
  destruct s as [p'|w'|p' w'|c|c p' w']; cbn [crun cfresh cstep_ok] in *.
  - apply IH; auto. unfold kept. cbn. repeat split; auto. exists w0. now apply settings_prec with p.
  - apply IH; auto. unfold kept. cbn. repeat split; auto. now exists w0.
  - apply IH; auto. unfold kept. cbn. repeat split; auto. exists w0. now apply settings_prec with p.
  - rewrite fresh_shown by exact P. assert (G : exists w', settings (c_fmt (cf_call f c)) p w' RightAlign) by now exists w0.
    pose proof (print_fmt debug spec (cf_call f c) p w p c _ eq_refl G ltac:(lia) S eq_refl eq_refl) as H. cbn [c_wtmp c_tw c_pw c_old cf_call] in H. rewrite K1, K2, K3 in H. specialize (H eq_refl eq_refl P).
    destruct (shown debug p w c) as [o|e|]; [|now rewrite H|now rewrite H]. destruct H as (f' & s' & E & K' & S'). rewrite E. cbn [bind fst snd]. now rewrite (IH s' f' p w).
  - rewrite fresh_shown by exact A1. assert (G : exists w', settings (c_fmt (cf_tmp f c p' w')) p' w' RightAlign) by (exists w0; now apply settings_prec with p).
    destruct (settings_cur _ _ _ _ K4) as [CP _].
    pose proof (print_fmt debug spec (cf_tmp f c p' w') p' w' p c _ eq_refl G ltac:(lia) S eq_refl eq_refl) as H. cbn [c_wtmp c_tw c_pw c_old cf_tmp] in H. rewrite CP, K2 in H.
    specialize (H eq_refl). replace (p =? -1) with false in H by (symmetry; apply Z.eqb_neq; lia). specialize (H eq_refl P).
    destruct (shown debug p' w' c) as [o|e|]; [|now rewrite H|now rewrite H]. destruct H as (f' & s' & E & K' & S'). rewrite E. cbn [bind fst snd]. now rewrite (IH s' f' p w).
Qed.

(** * The automatic width *)

Lemma ln10_pos : (0 < ln 10)%R.
Proof. rewrite <- ln_1. apply ln_increasing; lra. Qed.
Lemma pow10_pos k : 0 <= k -> (0 < IZR (10 ^ k))%R.
Proof. intros K. apply IZR_lt. apply Z.pow_pos_nonneg; lia. Qed.
Lemma ln_pow10 k : 0 <= k -> (ln (IZR (10 ^ k)) = IZR k * ln 10)%R.
Proof.
  intros K. pattern k. apply natlike_ind; [cbn; rewrite ln_1; ring| |exact K].
  intros x X IH. rewrite Z.pow_succ_r, mult_IZR, ln_mult, IH, succ_IZR by (try lra; try lia; now apply pow10_pos). ring.
Qed.
Definition places_before (x : R) : Z := Zceil (log10 (Rabs x + 1)).
Lemma places_before_le x k : 0 <= k -> (places_before x <= k <-> (Rabs x + 1 <= IZR (10 ^ k))%R).
Proof.
  intros K. pose proof (Rabs_pos x) as A. pose proof ln10_pos as L10. unfold places_before, log10. split.
  - intros H. assert (C : (ln (Rabs x + 1) / ln 10 <= IZR k)%R) by (apply Rle_trans with (2 := IZR_le _ _ H); apply Zceil_ub).
    apply Rmult_le_compat_r with (r := ln 10) in C; [|lra]. unfold Rdiv in C. rewrite Rmult_assoc, Rinv_l, Rmult_1_r in C by lra. rewrite <- ln_pow10 in C by exact K.
    destruct (Rle_lt_dec (Rabs x + 1) (IZR (10 ^ k))) as [|G]; [assumption|]. apply ln_increasing in G; [lra|now apply pow10_pos].
  - intros H. apply Zceil_glb. apply Rmult_le_reg_r with (ln 10)%R; [lra|]. unfold Rdiv. rewrite Rmult_assoc, Rinv_l, Rmult_1_r by lra. rewrite <- ln_pow10 by exact K.
    destruct (Rle_lt_or_eq_dec _ _ H) as [G|G]; [|rewrite G; lra]. apply Rlt_le, ln_increasing; lra.
Qed.
Lemma places_before_nonneg x : 0 <= places_before x.
Proof.
  pose proof (Rabs_pos x) as A. unfold places_before, log10. assert (0 <= ln (Rabs x + 1) / ln 10)%R.
  { apply Rmult_le_pos; [|apply Rlt_le, Rinv_0_lt_compat, ln10_pos]. rewrite <- ln_1. destruct (Rle_lt_or_eq_dec 0 _ A) as [G|G]; [apply Rlt_le, ln_increasing; lra|rewrite <- G; right; f_equal; lra]. }
  pose proof (Zceil_ub (ln (Rabs x + 1) / ln 10)) as U. apply le_IZR. lra.
Qed.
Lemma digits_value p mn mx : digits p mn mx = Z.max 1 (Z.max (places_before mn) (places_before mx)) + (if Rlt_dec mn 0 then 1 else 0) + 1 + p.
Proof.
  unfold digits. fold (places_before mn) (places_before mx). pose proof (places_before_nonneg mn). pose proof (places_before_nonneg mx).
  destruct (places_before mn <? places_before mx) eqn:E1; destruct ((places_before mn =? 0) && (places_before mx =? 0)) eqn:E2; destruct (Rlt_dec mn 0); lia.
Qed.
Lemma extremes_spec l : forall mn mx, let '(a, b) := extremes l mn mx in
  (a <= mn)%R /\ (mx <= b)%R /\ (forall v, In v l -> (a <= num v <= b)%R) /\ (a = mn \/ exists v, In v l /\ a = num v) /\ (b = mx \/ exists v, In v l /\ b = num v).
Proof.
  induction l as [|v l IH]; intros mn mx; cbn [extremes]; [repeat split; try lra; try contradiction; auto|].
  specialize (IH (if Rlt_dec (num v) mn then num v else mn) (if Rlt_dec mx (num v) then num v else mx)).
  destruct (extremes l _ _) as [a b]. destruct IH as (I1 & I2 & I3 & I4 & I5).
  assert (A : (a <= mn /\ a <= num v)%R) by (destruct (Rlt_dec (num v) mn); lra). assert (B : (mx <= b /\ num v <= b)%R) by (destruct (Rlt_dec mx (num v)); lra).
  repeat split; try lra.
  - destruct H as [<-|H]; [lra|]. apply I3 in H. lra.
  - destruct H as [<-|H]; [lra|]. apply I3 in H. lra.
  - destruct I4 as [I4|(u & U & E)]; [|right; exists u; split; [now right|exact E]]. destruct (Rlt_dec (num v) mn); [right; exists v; split; [now left|exact I4]|now left].
  - destruct I5 as [I5|(u & U & E)]; [|right; exists u; split; [now right|exact E]]. destruct (Rlt_dec mx (num v)); [right; exists v; split; [now left|exact I5]|now left].
Qed.

(** The length of a printed number. *)
Definition whole (v : fval) (p : Z) : Z := ZnearestE (mag v * IZR (10 ^ p)) / 10 ^ p.
Lemma nearest_nonneg x : (0 <= x)%R -> 0 <= ZnearestE x.
Proof. intros H. rewrite <- (Zrnd_IZR ZnearestE 0). apply Zrnd_le; [apply valid_rnd_N|exact H]. Qed.
Lemma whole_nonneg v p : (0 <= mag v)%R -> 0 <= p -> 0 <= whole v p.
Proof. intros H P. apply Z.div_pos; [|apply Z.pow_pos_nonneg; lia]. apply nearest_nonneg. apply Rmult_le_pos; [exact H|apply Rlt_le; now apply pow10_pos]. Qed.
Lemma text_length v p : (0 <= mag v)%R -> 0 <= p ->
  Zlen (text_of v p) = (if neg v then 1 else 0) + Zlen (dec (whole v p)) + (if p =? 0 then 0 else 1 + p).
Proof.
  intros M P. unfold text_of. fold (whole v p). set (n := ZnearestE (mag v * IZR (10 ^ p))). rewrite !Zlen_app.
  replace (Zlen (if neg v then [45] else [])) with (if neg v then 1 else 0) by (destruct (neg v); reflexivity).
  destruct (p =? 0) eqn:E; [change (Zlen (@nil Z)) with 0; lia|]. apply Z.eqb_neq in E. rewrite Zlen_cons. unfold places. rewrite Zlen_app.
  assert (T : 0 < 10 ^ p) by (apply Z.pow_pos_nonneg; lia). pose proof (Z.mod_pos_bound n (10 ^ p) T) as MB.
  assert (D : Zlen (dec (n mod 10 ^ p)) <= p) by (apply (canonical_len (n mod 10 ^ p)); [apply dec_canonical; lia|lia|lia]).
  assert (R : Zlen (repeat 48 (Z.to_nat (p - Zlen (dec (n mod 10 ^ p))))) = p - Zlen (dec (n mod 10 ^ p))) by (unfold Zlen in *; rewrite repeat_length; lia). rewrite R. lia.
Qed.
Lemma whole_upper v p k : (0 <= mag v)%R -> 0 <= p -> 0 < k -> (mag v + 1 <= IZR (10 ^ k))%R -> Zlen (dec (whole v p)) <= k.
Proof.
  intros M P K H. apply (canonical_len (whole v p)); [apply dec_canonical; now apply whole_nonneg|exact K|]. unfold whole.
  assert (T : 0 < 10 ^ p) by (apply Z.pow_pos_nonneg; lia). apply Z.div_lt_upper_bound; [exact T|].
  assert (L : ZnearestE (mag v * IZR (10 ^ p)) <= (10 ^ k - 1) * 10 ^ p).
  { rewrite <- (Zrnd_IZR ZnearestE ((10 ^ k - 1) * 10 ^ p)). apply Zrnd_le; [apply valid_rnd_N|]. rewrite mult_IZR, minus_IZR. apply Rmult_le_compat_r; [apply Rlt_le; now apply pow10_pos|lra]. }
  lia.
Qed.
Lemma whole_lower v p k : (0 <= mag v)%R -> 0 <= p -> 2 <= k -> (IZR (10 ^ (k - 1)) < mag v + 1)%R -> k - 1 <= Zlen (dec (whole v p)).
Proof.
  intros M P K H. assert (DP : 1 <= Zlen (dec (whole v p))).
  { pose proof (dec_canonical _ (whole_nonneg v p M P)) as (_ & NE & _). destruct (dec (whole v p)); [congruence|]. rewrite Zlen_cons. pose proof (Zlen_nonneg l). lia. }
  destruct (Z.eq_dec k 2) as [->|K2]; [exact DP|].
  destruct (Z_le_gt_dec (k - 1) (Zlen (dec (whole v p)))) as [|G]; [assumption|]. exfalso.
  assert (B : whole v p < 10 ^ (k - 2)) by (apply (canonical_len (whole v p) (dec (whole v p))); [apply dec_canonical; now apply whole_nonneg|lia|lia]).
  unfold whole in B. set (n := ZnearestE (mag v * IZR (10 ^ p))) in *. assert (T : 0 < 10 ^ p) by (apply Z.pow_pos_nonneg; lia).
  assert (NB : n < 10 ^ (k - 2) * 10 ^ p).
  { pose proof (Z.div_mod n (10 ^ p) ltac:(lia)) as DM. pose proof (Z.mod_pos_bound n (10 ^ p) T). nia. }
  pose proof (Znearest_half (fun t => negb (Z.even t)) (mag v * IZR (10 ^ p))) as HF. fold n in HF. apply Rabs_le_inv in HF.
  assert (NR : (IZR n <= IZR (10 ^ (k - 2)) * IZR (10 ^ p) - 1)%R) by (rewrite <- mult_IZR, <- minus_IZR; apply IZR_le; lia).
  assert (MM : (mag v < IZR (10 ^ (k - 2)))%R) by (apply Rmult_lt_reg_r with (IZR (10 ^ p)); [now apply pow10_pos|lra]).
  assert (PW : (IZR (10 ^ (k - 2)) + 1 <= IZR (10 ^ (k - 1)))%R).
  { rewrite <- plus_IZR. apply IZR_le. replace (k - 1) with (Z.succ (k - 2)) by lia. rewrite Z.pow_succ_r by lia. assert (0 < 10 ^ (k - 2)) by (apply Z.pow_pos_nonneg; lia). lia. }
  lra.
Qed.
Lemma abs_num v : (0 <= mag v)%R -> Rabs (num v) = mag v.
Proof. intros H. unfold num. destruct (neg v); [rewrite Rabs_Ropp|]; apply Rabs_pos_eq; exact H. Qed.

(** The width found for a list: every number fits, and it is not much too wide. *)
Definition proper (v : fval) : Prop := (0 <= mag v)%R /\ (neg v = true -> (0 < mag v)%R).
Definition auto_width (p : Z) (v : fval) (tl : list fval) : Z := digits p (fst (extremes tl (num v) (num v))) (snd (extremes tl (num v) (num v))).
Lemma auto_width_fits p v tl : 0 <= p -> Forall proper (v :: tl) -> forall u, In u (v :: tl) -> Zlen (text_of u p) <= auto_width p v tl.
Proof.
  intros P F u U. unfold auto_width. pose proof (extremes_spec tl (num v) (num v)) as X. destruct (extremes tl (num v) (num v)) as [mn mx]. cbn [fst snd]. destruct X as (X1 & X2 & X3 & _ & _).
  rewrite Forall_forall in F. destruct (F u U) as [MU NU]. rewrite digits_value, text_length by assumption.
  set (k := Z.max 1 (Z.max (places_before mn) (places_before mx))).
  assert (UB : (mn <= num u <= mx)%R) by (destruct U as [<-|U]; [lra|now apply X3]).
  assert (B1 : (Rabs mn + 1 <= IZR (10 ^ k))%R) by (apply places_before_le; lia). assert (B2 : (Rabs mx + 1 <= IZR (10 ^ k))%R) by (apply places_before_le; lia).
  assert (MB : (mag u + 1 <= IZR (10 ^ k))%R).
  { rewrite <- abs_num by exact MU. clear - UB B1 B2. unfold Rabs in *. destruct (Rcase_abs mn), (Rcase_abs mx), (Rcase_abs (num u)); lra. }
  pose proof (whole_upper u p k MU P ltac:(lia) MB) as W.
  assert (SG : (if neg u then 1 else 0) <= (if Rlt_dec mn 0 then 1 else 0)).
  { destruct (neg u) eqn:N; [|destruct (Rlt_dec mn 0); lia]. destruct (Rlt_dec mn 0) as [|G]; [lia|]. exfalso. apply G. specialize (NU eq_refl). unfold num in UB. rewrite N in UB. lra. }
  destruct (p =? 0); lia.
Qed.
Lemma auto_width_close p v tl : 0 <= p -> Forall proper (v :: tl) -> exists u, In u (v :: tl) /\ auto_width p v tl <= Zlen (text_of u p) + 3.
Proof.
  intros P F. unfold auto_width. pose proof (extremes_spec tl (num v) (num v)) as X. destruct (extremes tl (num v) (num v)) as [mn mx]. cbn [fst snd]. destruct X as (_ & _ & _ & X4 & X5).
  rewrite digits_value. set (k := Z.max 1 (Z.max (places_before mn) (places_before mx))). rewrite Forall_forall in F.
  assert (ATT : exists u, In u (v :: tl) /\ (k = 1 \/ k = places_before (num u))).
  { destruct (Z_le_gt_dec (places_before mx) (places_before mn)) as [C|C].
    - destruct X4 as [->|(u & U & ->)]; [exists v|exists u]; (split; [cbn; auto|lia]).
    - destruct X5 as [->|(u & U & ->)]; [exists v|exists u]; (split; [cbn; auto|lia]). }
  destruct ATT as (u & U & K). exists u. split; [exact U|]. destruct (F u U) as [MU _]. rewrite text_length by assumption.
  assert (DP : 1 <= Zlen (dec (whole u p))).
  { pose proof (dec_canonical _ (whole_nonneg u p MU P)) as (_ & NE & _). destruct (dec (whole u p)); [congruence|]. rewrite Zlen_cons. pose proof (Zlen_nonneg l). lia. }
  assert (DL : k - 1 <= Zlen (dec (whole u p))).
  { destruct (Z_le_gt_dec k 1); [lia|]. destruct K as [K|K]; [lia|]. apply whole_lower; [exact MU|exact P|lia|]. rewrite <- abs_num by exact MU.
    destruct (Rlt_le_dec (IZR (10 ^ (k - 1))) (Rabs (num u) + 1)) as [|G]; [assumption|]. apply places_before_le in G; lia. }
  destruct (neg u), (Rlt_dec mn 0), (p =? 0) eqn:E; lia.
Qed.
Lemma auto_width_bounds p v tl : 0 <= p -> Forall proper (v :: tl) -> (forall u, In u (v :: tl) -> Zlen (text_of u p) <= 29) -> 0 <= auto_width p v tl <= 32.
Proof.
  intros P F T. destruct (auto_width_close p v tl P F) as (u & U & C). pose proof (T u U). pose proof (auto_width_fits p v tl P F u U). pose proof (Zlen_nonneg (text_of u p)). lia.
Qed.

(** Cells of numbers that fit. *)
Lemma cell_right w p v : 0 <= p <= 20 -> Zlen (text_of v p) <= 29 -> -1000000000 <= w <= 1000000000 ->
  cell RightAlign w p v = Ok (repeat 32 (Z.to_nat (w - Zlen (text_of v p))) ++ text_of v p).
Proof.
  intros P T W. unfold cell. replace (Z.min p 20) with p by lia. rewrite firstn_all2 by (unfold Zlen in T; lia). pose proof (Zlen_nonneg (text_of v p)).
  unfold lay, int_op. replace (in_int (w - Zlen (text_of v p))) with true by (symmetry; unfold in_int, int_min, int_max; lia). cbn [bind].
  destruct (w - Zlen (text_of v p) <=? 0) eqn:E.
  - replace (Z.to_nat (w - Zlen (text_of v p))) with O by lia. reflexivity.
  - unfold pre_pad, post_pad. rewrite E. unfold pad. now rewrite app_nil_r.
Qed.
(** The text of a number in a column, written independently. *)
Definition column (w p : Z) (v : fval) : list Z := repeat 32 (Z.to_nat (w - Zlen (text_of v p))) ++ text_of v p.
Lemma cells_right w p after : 0 <= p <= 20 -> -1000000000 <= w <= 1000000000 -> forall l, (forall v, In v l -> Zlen (text_of v p) <= 29) ->
  cells RightAlign w p l after = Ok (concat (map (fun v => column w p v ++ after) l)).
Proof.
  intros P W. induction l as [|v l IH]; intros T; [reflexivity|]. cbn [cells map concat]. rewrite cell_right by (auto; apply T; now left). cbn [bind]. rewrite IH by (intros u U; apply T; now right). cbn [bind].
  unfold column. now rewrite <- !app_assoc.
Qed.

(** * Matrices and transforms *)

Lemma cell_any a w p v : (0 < w -> a = RightAlign) -> cell a w p v = cell RightAlign w p v.
Proof.
  intros H. destruct (Z_lt_le_dec 0 w) as [L|L]; [now rewrite H|]. unfold cell. pose proof (Zlen_nonneg (firstn 29 (text_of v (Z.min p 20)))) as N.
  unfold lay, int_op. destruct (in_int _); cbn [bind]; [|reflexivity]. destruct (_ <=? 0) eqn:E; [reflexivity|lia].
Qed.
Fixpoint sheet_cells (w p : Z) (l : list piece) : res (list Z) :=
  match l with
  | [] => Ok []
  | Txt s :: tl => o <- sheet_cells w p tl ;; Ok (s ++ o)
  | Num v :: tl => o <- cell RightAlign w p v ;; o2 <- sheet_cells w p tl ;; Ok (o ++ o2)
  end.
Lemma print_sheet debug p w a : 0 <= p -> (0 < w -> a = RightAlign) -> forall l spec f, settings f p w a -> spec_shape spec ->
  match sheet_cells w p l with
  | Ok o => exists f' spec', print_pieces debug spec f l = Ok (f', o, spec') /\ settings f' p w a /\ spec_shape spec'
  | Throw e => print_pieces debug spec f l = Throw e
  | UB => print_pieces debug spec f l = UB
  end.
Proof.
  intros P A. induction l as [|x l IH]; intros spec f F S; [cbn; eauto|]. destruct x as [s|v]; cbn [sheet_cells print_pieces].
  - specialize (IH spec f F S). destruct (sheet_cells w p l) as [o|e|]; cbn [bind]; [|now rewrite IH|now rewrite IH]. destruct IH as (f2 & s2 & E2 & F2 & S2). rewrite E2. cbn [bind]. eauto.
  - pose proof (print_cell debug spec f p w a v F P S) as H. rewrite (cell_any a w p v A) in H.
    destruct (cell RightAlign w p v) as [o|e|]; cbn [bind]; [|now rewrite H|now rewrite H]. destruct H as (f1 & s1 & E & F1 & S1). rewrite E. cbn [bind].
    specialize (IH s1 f1 F1 S1). destruct (sheet_cells w p l) as [o2|e|]; cbn [bind]; [|now rewrite IH|now rewrite IH].
    destruct IH as (f2 & s2 & E2 & F2 & S2). rewrite E2. cbn [bind]. eauto.
Qed.
Definition right_or_free (a : align) (w : Z) : Prop := (a = NoAlign \/ a = RightAlign) /\ (0 < w -> a = RightAlign).
Definition mset (f : ffmt) (p w : Z) : Prop := exists a, settings f p w a /\ right_or_free a w.
Definition mkept (f : mfmt) (p w : Z) : Prop := m_tmp f = false /\ mset (m_fmt f) p w.
Lemma mset_width f p w w' : mset f p w -> mset (ff_width f w') p w'.
Proof.
  intros (a & F & [A1 A2]). eexists. split; [exact (settings_width f p w a w' F)|]. unfold right_or_free.
  destruct A1 as [-> | ->]; cbn [is_none]; destruct (w' >? 0) eqn:E; cbn [andb]; split; auto; intros; lia.
Qed.
Lemma mset_prec f p w p' : mset f p w -> 0 <= p' < 2 ^ 31 -> mset (ff_prec f p') p' w.
Proof. intros (a & F & A) P. exists a. split; [now apply settings_prec with p|exact A]. Qed.
Lemma mset_print debug spec f p w l : mset f p w -> 0 <= p -> spec_shape spec ->
  match sheet_cells w p l with
  | Ok o => exists f' spec', print_pieces debug spec f l = Ok (f', o, spec') /\ mset f' p w /\ spec_shape spec'
  | Throw e => print_pieces debug spec f l = Throw e
  | UB => print_pieces debug spec f l = UB
  end.
Proof.
  intros (a & F & [A1 A2]) P S. pose proof (print_sheet debug p w a P A2 l spec f F S) as H. destruct (sheet_cells w p l); auto. destruct H as (f' & s' & E & F' & S').
  exists f', s'. split; [exact E|]. split; [|exact S']. exists a. split; [exact F'|split; assumption].
Qed.
Lemma mf_call_print debug spec f p w l : mkept f p w -> 0 <= p -> spec_shape spec ->
  match sheet_cells w p l with
  | Ok o => exists f' spec', mf_print debug spec (mf_call f l) = Ok (f', o, spec') /\ mkept f' p w /\ spec_shape spec'
  | Throw e => mf_print debug spec (mf_call f l) = Throw e
  | UB => mf_print debug spec (mf_call f l) = UB
  end.
Proof.
  intros [T M] P S. pose proof (mset_print debug spec (m_fmt f) p w l M P S) as H. unfold mf_print. cbn [mf_call m_what m_ready m_tmp m_fmt m_tw m_tp negb]. rewrite andb_false_r, T.
  destruct (sheet_cells w p l) as [o|e|]; [|now rewrite H|now rewrite H]. destruct H as (f' & s' & E & M' & S'). rewrite E. cbn [bind]. do 2 eexists. split; [reflexivity|]. split; [split; [reflexivity|exact M']|exact S'].
Qed.
Lemma mf_tmp_print debug spec f p w l p' w' : mkept f p w -> 0 <= p < 2 ^ 31 -> 0 <= p' < 2 ^ 31 -> spec_shape spec ->
  match sheet_cells w' p' l with
  | Ok o => exists f' spec', mf_print debug spec (mf_tmp f l w' p') = Ok (f', o, spec') /\ mkept f' p w /\ spec_shape spec'
  | Throw e => mf_print debug spec (mf_tmp f l w' p') = Throw e
  | UB => mf_print debug spec (mf_tmp f l w' p') = UB
  end.
Proof.
  intros [T M] P P' S. assert (M1 : mset (ff_width (ff_prec (m_fmt f) p') w') p' w') by (apply mset_width with w; now apply mset_prec with p).
  pose proof (mset_print debug spec _ p' w' l M1 ltac:(lia) S) as H. unfold mf_print. cbn [mf_tmp m_what m_ready m_tmp m_fmt m_tw m_tp negb]. rewrite andb_false_r.
  assert (CUR : ff_cur_prec (m_fmt f) = p /\ ff_cur_width (m_fmt f) = w) by (destruct M as (a & F & _); exact (settings_cur _ _ _ _ F)). destruct CUR as [-> ->].
  destruct (sheet_cells w' p' l) as [o|e|]; [|now rewrite H|now rewrite H]. destruct H as (f' & s' & E & M' & S'). rewrite E. cbn [bind]. do 2 eexists. split; [reflexivity|].
  split; [split; [reflexivity|]|exact S']. cbn [m_fmt]. apply mset_width with w'. now apply mset_prec with p'.
Qed.
Inductive mstep := MPrec (p : Z) | MWidth (w : Z) | MShow (s : list piece) | MShowTmp (s : list piece) (w p : Z).
Definition mstep_ok (s : mstep) : Prop := match s with MPrec p | MShowTmp _ _ p => 0 <= p < 2 ^ 31 | _ => True end.
Fixpoint mrun (debug : bool) (spec : list Z) (f : mfmt) (l : list mstep) : res (list (list Z)) :=
  match l with
  | [] => Ok []
  | MPrec p :: tl => mrun debug spec (mf_precision f p) tl
  | MWidth w :: tl => mrun debug spec (mf_width f w) tl
  | MShow c :: tl => r <- mf_print debug spec (mf_call f c) ;; o <- mrun debug (snd r) (fst (fst r)) tl ;; Ok (snd (fst r) :: o)
  | MShowTmp c w p :: tl => r <- mf_print debug spec (mf_tmp f c w p) ;; o <- mrun debug (snd r) (fst (fst r)) tl ;; Ok (snd (fst r) :: o)
  end.
(** Every text by a formatter of its own, made by [make width precision]. *)
Definition fresh_sheet (debug : bool) (make : Z -> Z -> mfmt) (w p : Z) (c : list piece) : res (list Z) :=
  r <- mf_print debug ff_spec0 (mf_call (make w p) c) ;; Ok (snd (fst r)).
Fixpoint mfresh (debug : bool) (make : Z -> Z -> mfmt) (w p : Z) (l : list mstep) : res (list (list Z)) :=
  match l with
  | [] => Ok []
  | MPrec p' :: tl => mfresh debug make w p' tl
  | MWidth w' :: tl => mfresh debug make w' p tl
  | MShow c :: tl => t <- fresh_sheet debug make w p c ;; o <- mfresh debug make w p tl ;; Ok (t :: o)
  | MShowTmp c w' p' :: tl => t <- fresh_sheet debug make w' p' c ;; o <- mfresh debug make w p tl ;; Ok (t :: o)
  end.
Lemma new_matrix_kept w p : 0 <= p < 2 ^ 31 -> mkept (mf_new_matrix w p) p w.
Proof.
  intros P. split; [reflexivity|]. cbn [mf_new_matrix m_fmt]. apply mset_prec with 4; [|exact P]. apply mset_width with (-1). exists NoAlign. unfold settings, no_tmp, right_or_free. cbn. repeat split; auto. lia.
Qed.
Lemma new_transform_kept w p : 0 <= p < 2 ^ 31 -> mkept (mf_new_transform w p) p w.
Proof. intros P. split; [reflexivity|]. exists RightAlign. unfold settings, no_tmp, right_or_free. cbn. auto 10. Qed.
Lemma fresh_sheet_text debug make w p c : (forall w p, 0 <= p < 2 ^ 31 -> mkept (make w p) p w) -> 0 <= p < 2 ^ 31 -> fresh_sheet debug make w p c = sheet_cells w p c.
Proof.
  intros MK P. unfold fresh_sheet. pose proof (mf_call_print debug ff_spec0 _ p w c (MK w p P) ltac:(lia) spec0_shape) as H.
  destruct (sheet_cells w p c) as [o|e|]; [|now rewrite H|now rewrite H]. destruct H as (f' & s' & E & _). rewrite E. reflexivity.
Qed.
Lemma mrun_fresh debug make : (forall w p, 0 <= p < 2 ^ 31 -> mkept (make w p) p w) ->
  forall l spec f p w, mkept f p w -> 0 <= p < 2 ^ 31 -> spec_shape spec -> Forall mstep_ok l -> mrun debug spec f l = mfresh debug make w p l.
Proof.
  intros MK. induction l as [|s l IH]; intros spec f p w K P S A; [reflexivity|]. apply Forall_cons_iff in A as [A1 A2].
  destruct s as [p'|w'|c|c w' p']; cbn [mrun mfresh mstep_ok] in *.
  - apply IH; auto. destruct K as [K1 K2]. split; [exact K1|]. now apply mset_prec with p.
  - apply IH; auto. destruct K as [K1 K2]. split; [exact K1|]. now apply mset_width with w.
  - rewrite (fresh_sheet_text debug make w p c MK P). pose proof (mf_call_print debug spec f p w c K ltac:(lia) S) as H.
    destruct (sheet_cells w p c) as [o|e|]; [|now rewrite H|now rewrite H]. destruct H as (f' & s' & E & K' & S'). rewrite E. cbn [bind fst snd]. now rewrite (IH s' f' p w).
  - rewrite (fresh_sheet_text debug make w' p' c MK A1). pose proof (mf_tmp_print debug spec f p w c p' w' K P A1 S) as H.
    destruct (sheet_cells w' p' c) as [o|e|]; [|now rewrite H|now rewrite H]. destruct H as (f' & s' & E & K' & S'). rewrite E. cbn [bind fst snd]. now rewrite (IH s' f' p w).
Qed.
Definition show_piece (w p : Z) (x : piece) : list Z := match x with Txt s => s | Num v => column w p v end.
Lemma sheet_text w p : 0 <= p <= 20 -> -1000000000 <= w <= 1000000000 -> forall l, (forall v, In (Num v) l -> Zlen (text_of v p) <= 29) ->
  sheet_cells w p l = Ok (concat (map (show_piece w p) l)).
Proof.
  intros P W. induction l as [|x l IH]; intros T; [reflexivity|]. assert (T' : forall v, In (Num v) l -> Zlen (text_of v p) <= 29) by (intros v V; apply T; now right).
  destruct x as [s|v]; cbn [sheet_cells map concat show_piece]; rewrite (IH T'); [reflexivity|]. rewrite cell_right by (auto; apply T; now left). reflexivity.
Qed.
Lemma concat_map_concat {A B} (g : A -> list B) (ll : list (list A)) : concat (map g (concat ll)) = concat (map (fun l => concat (map g l)) ll).
Proof. induction ll as [|l ll IH]; [reflexivity|]. cbn [concat map]. now rewrite map_app, concat_app, IH. Qed.

(** * Bytes *)

Definition hexd (d : Z) : Z := nth (Z.to_nat d) [48;49;50;51;52;53;54;55;56;57;97;98;99;100;101;102] 0.
Lemma hex_char_hexd d : 0 <= d < 16 -> hex_char d = hexd d.
Proof.
  intros D. assert (d = 0 \/ d = 1 \/ d = 2 \/ d = 3 \/ d = 4 \/ d = 5 \/ d = 6 \/ d = 7 \/ d = 8 \/ d = 9 \/ d = 10 \/ d = 11 \/ d = 12 \/ d = 13 \/ d = 14 \/ d = 15) as H by lia.
  repeat (destruct H as [->|H]; [reflexivity|]). now subst.
Qed.
Lemma hex_byte b i : 0 <= i -> hex_digit b i = hexd ((b / 16 ^ i) mod 16).
Proof.
  intros I. unfold hex_digit. replace 15 with (Z.ones 4) by reflexivity. rewrite Z.land_ones by lia. rewrite Z.shiftr_div_pow2 by lia.
  replace (2 ^ (i * 4)) with (16 ^ i) by (rewrite (Z.mul_comm i 4), Z.pow_mul_r by lia; reflexivity). change (2 ^ 4) with 16. apply hex_char_hexd. apply Z.mod_pos_bound. lia.
Qed.
Definition byte_text (b : Z) : list Z := [48; 120; hexd (b / 16 mod 16); hexd (b mod 16)].
Definition byte_type (t : fty) : Prop := t = FChar \/ t = FSChar \/ t = FUChar.
Lemma bytes_text_ok debug conv t : byte_type t -> forall l f, on_tmp f = false -> prm_base f = Hex -> prm_width f = -1 -> 
  bytes_text debug conv t f l = Ok (concat (map (fun b => byte_text b ++ [32]) l)).
Proof.
  intros T. induction l as [|b l IH]; intros f F1 F2 F3; [reflexivity|]. cbn [bytes_text map concat].
  assert (E : f_print debug t conv (f_val f b) = Ok (mkFmt (prm_width f) (prm_align f) (prm_base f) (tmp_width f) (tmp_align f) (tmp_base f) false false b, byte_text b)).
  { destruct f as [pw pa pb tw ta tb ot rd v]. cbn [on_tmp prm_base prm_width] in F1, F2, F3. subst.
    unfold f_print, f_val, set_value, cur_base, cur_align, cur_width. cbn [ready negb on_tmp value prm_base prm_align prm_width tmp_width tmp_align tmp_base].
    cbn [fmt_text]. replace (fbits t) with 8 by (destruct T as [->|[->| ->]]; reflexivity). change (Z.to_nat (8 / 4)) with 2%nat. cbn [down bind fst snd].
    change (Z.of_nat 1) with 1. change (Z.of_nat 0) with 0. rewrite (hex_byte b 1), (hex_byte b 0) by lia. change (16 ^ 1) with 16. change (16 ^ 0) with 1. rewrite Z.div_1_r. reflexivity. }
  rewrite E. cbn [bind fst snd]. rewrite IH by reflexivity || exact F2 || exact F3. cbn [bind]. now rewrite <- app_assoc.
Qed.
