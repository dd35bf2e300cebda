(** Properties of function objects, parameters and singletons (C228-C233). *)
From Verif Require Import Base FObjModel.

(** * Specification *)

(** The object at l, if it lives. *)
Definition object (h : heap) (l : loc) : option cell := match nth_error h l with Some (Some c) => Some c | _ => None end.
(** What a function does when called by hand: a member function needs an object that lives. *)
Definition on_object (h : heap) (o : loc) (m : res (heap * Z)) : res (heap * Z) := match object h o with Some _ => m | None => UB end.
(** [stands p f n m]: f takes n arguments and is there to do m. *)
Inductive stands (p : prog) : fobj -> (list arg -> heap -> res (heap * Z)) -> list arg -> Prop :=
| st_free0 i : stands p (gen_free0 i) (fun _ h => p_free0 p i h) []
| st_free1 i a : stands p (gen_free1 i) (fun _ h => p_free1 p i a h) [a]
| st_mem0 i o : stands p (gen_mem0 i) (fun _ h => on_object h o (p_mem0 p i o h)) [AR o]
| st_mem1 i o a : stands p (gen_mem1 i) (fun _ h => on_object h o (p_mem1 p i o a h)) [AR o; a]
| st_bmem0 i o : stands p (gen_bound_mem0 i o) (fun _ h => on_object h o (p_mem0 p i o h)) []
| st_pmem1 i o a f : gen_part_mem1 p i o = Made f -> stands p f (fun _ h => on_object h o (p_mem1 p i o a h)) [a]
| st_pmem2 i o a b f : make_part_mem2 p i o = Made f -> stands p f (fun _ h => on_object h o (p_mem2 p i o a b h)) [a; b].
(** f is g behind d copies and references. *)
Inductive behind (h : heap) : fobj -> fobj -> nat -> Prop :=
| be_self g : behind h g g 0
| be_ncopy f g d : behind h f g d -> behind h (NCopy f) g (S d)
| be_ucopy f g d : behind h f g d -> behind h (UCopy f) g (S d)
| be_nref l f g d : object h l = Some (CFun f) -> behind h f g d -> behind h (make_nref (rw_ref l)) g (S d)
| be_uref l v x u f g d : object h l = Some (CFun f) -> make_uref v x (rw_ref l) = Made u -> behind h f g d -> behind h u g (S d).
(** The wrappers take the arguments of what they wrap. *)
Fixpoint takes (f : fobj) (n : nat) : Prop :=
  match f with
  | NCopy g => n = 0%nat /\ takes g n
  | UCopy g => n = 1%nat /\ takes g n
  | NRef _ => n = 0%nat
  | URef _ => n = 1%nat
  | _ => True
  end.
Fixpoint fits (h : heap) (d : nat) (f : fobj) (n : nat) : Prop :=
  takes f n /\
  match d with
  | O => True
  | S k =>
    match f with
    | NCopy g | UCopy g => fits h k g n
    | NRef l | URef l => forall g, object h l = Some (CFun g) -> fits h k g n
    | _ => True
    end
  end.
(** A function that leaves function objects alone. *)
Definition keeps_functions (h h1 : heap) : Prop := forall l f, object h l = Some (CFun f) -> object h1 l = Some (CFun f).

(** * Lemmas *)

Lemma object_cell h l : object h l = cell_at h l.
Proof. reflexivity. Qed.

Lemma upd_same {A} n (x : A) l : nth_error l n = Some x -> upd n x l = l.
Proof.
  revert l. induction n as [|n IH]; intros [|y l] H; cbn in *; try discriminate.
  - injection H as ->. reflexivity.
  - f_equal. apply IH. exact H.
Qed.

Lemma upd_object h l c : object h l = Some c -> upd l (Some c) h = h.
Proof.
  unfold object. intros H. apply upd_same. destruct (nth_error h l) as [[x|]|]; try discriminate. injection H as ->. reflexivity.
Qed.

Lemma nth_upd_eq {A} n (x : A) l : (n < length l)%nat -> nth_error (upd n x l) n = Some x.
Proof. revert l. induction n as [|n IH]; intros [|y l] H; cbn in *; try lia; [reflexivity|apply IH; lia]. Qed.
Lemma nth_upd_neq {A} n m (x : A) l : n <> m -> nth_error (upd n x l) m = nth_error l m.
Proof. revert m l. induction n as [|n IH]; intros [|m] [|y l] H; cbn in *; try congruence; try reflexivity. apply IH. lia. Qed.
Lemma upd_upd {A} n (x y : A) l : upd n x (upd n y l) = upd n x l.
Proof. revert l. induction n as [|n IH]; intros [|z l]; cbn; try reflexivity. f_equal. apply IH. Qed.

Lemma object_len h l c : object h l = Some c -> (l < length h)%nat.
Proof. unfold object. intros H. destruct (nth_error h l) eqn:E; [|discriminate]. apply nth_error_Some. congruence. Qed.

Lemma object_upd_eq h l c : (l < length h)%nat -> object (upd l (Some c) h) l = Some c.
Proof. intros H. unfold object. rewrite nth_upd_eq by exact H. reflexivity. Qed.
Lemma object_upd_neq h l m c : l <> m -> object (upd l c h) m = object h m.
Proof. intros H. unfold object. rewrite nth_upd_neq by exact H. reflexivity. Qed.
Lemma object_kill h l : object (kill l h) l = None.
Proof.
  unfold object, kill. destruct (Nat.lt_ge_cases l (length h)) as [H|H].
  - rewrite nth_upd_eq by exact H. reflexivity.
  - replace (nth_error (upd l None h) l) with (@None (option cell)); [reflexivity|].
    symmetry. apply nth_error_None. rewrite upd_length. exact H.
Qed.
Lemma object_kill_neq h l m : l <> m -> object (kill l h) m = object h m.
Proof. intros H. unfold kill. apply object_upd_neq. exact H. Qed.

(** A direct call. *)
Lemma stands_call p f m args k h : stands p f m args -> call (S k) p f args h = (x <- m args h ;; Ok (f, fst x, snd x)).
Proof.
  intros H. destruct H; cbn; try reflexivity.
  - unfold gen_part_mem1 in H. destruct (p_void1 p i); [|discriminate]. injection H as <-. reflexivity.
  - unfold make_part_mem2 in H. destruct (p_void2 p i); [|discriminate]. injection H as <-. reflexivity.
Qed.

(** * C228: a function object does what the function it was made from does *)

Theorem C228_wrapped : forall p f g m args d fuel h,
  stands p g m args -> behind h f g d -> fits h d f (length args) -> (d < fuel)%nat ->
  (forall h1 r, m args h = Ok (h1, r) -> keeps_functions h h1) ->
  call fuel p f args h = (x <- m args h ;; Ok (f, fst x, snd x)).
Proof.
  intros p f g m args d fuel h HS HB. revert fuel.
  induction HB as [g|f g d HB IH|f g d HB IH|l f g d HL HB IH|l v x u f g d HL HU HB IH]; intros fuel HF Hd HK.
  - destruct fuel as [|k]; [lia|]. apply stands_call. exact HS.
  - destruct fuel as [|k]; [lia|]. cbn in HF. destruct HF as [[HN _] HF]. destruct args as [|a args]; [|discriminate].
    cbn [call]. rewrite (IH HS k HF) by (lia || exact HK). destruct (m [] h) as [[h1 r]|e|]; reflexivity.
  - destruct fuel as [|k]; [lia|]. cbn in HF. destruct HF as [[HN _] HF]. destruct args as [|a [|b args]]; try discriminate.
    cbn [call]. rewrite (IH HS k HF) by (lia || exact HK). destruct (m [a] h) as [[h1 r]|e|]; reflexivity.
  - destruct fuel as [|k]; [lia|]. unfold make_nref, rw_ref, rw_reference in *. cbn in HF. destruct HF as [HN HF].
    destruct args as [|a args]; [|discriminate].
    cbn [call]. rewrite <- object_cell, HL. rewrite (IH HS k (HF _ HL)) by (lia || exact HK).
    destruct (m [] h) as [[h1 r]|e|]; try reflexivity. cbn.
    rewrite upd_object; [reflexivity|]. apply (HK h1 r eq_refl). exact HL.
  - destruct fuel as [|k]; [lia|].
    assert (u = URef l) as -> by (destruct v, x; cbn in HU; try discriminate; injection HU as <-; reflexivity).
    cbn in HF. destruct HF as [HN HF]. destruct args as [|a [|b args]]; try discriminate.
    cbn [call]. rewrite <- object_cell, HL. rewrite (IH HS k (HF _ HL)) by (lia || exact HK).
    destruct (m [a] h) as [[h1 r]|e|]; try reflexivity. cbn.
    rewrite upd_object; [reflexivity|]. apply (HK h1 r eq_refl). exact HL.
Qed.
Print Assumptions C228_wrapped.

(** Calling by hand, many times in a row. *)
Fixpoint by_hand (m : heap -> res (heap * Z)) (n : nat) (h : heap) : res (heap * list Z) :=
  match n with
  | O => Ok (h, [])
  | S k => x <- m h ;; y <- by_hand m k (fst x) ;; Ok (fst y, snd x :: snd y)
  end.

Theorem C228_history : forall p f m args n k h,
  stands p f m args ->
  calls (S k) p f (repeat args n) h = (y <- by_hand (m args) n h ;; Ok (f, fst y, snd y)).
Proof.
  intros p f m args n k h HS. revert h. induction n as [|n IH]; intros h; [reflexivity|].
  cbn [repeat calls by_hand]. rewrite (stands_call _ _ _ _ _ _ HS).
  destruct (m args h) as [[h1 r]|e|]; try reflexivity. cbn [bind fst snd].
  rewrite IH. destruct (by_hand (m args) n h1) as [[h2 rs]|e|]; reflexivity.
Qed.
Print Assumptions C228_history.

(** A program: free function 0 adds one to the object at 0 and returns it; free function 1 returns its argument; member function 0 adds one to
    its object; member functions 1 and 2 add their arguments; objects of class 0 count their calls. *)
Definition rd (h : heap) (l : loc) : res Z := match object h l with Some (CVal _ v) => Ok v | _ => UB end.
Definition wr (h : heap) (l : loc) (v : Z) : heap := upd l (Some (CVal 0 v)) h.
Definition av (h : heap) (a : arg) : res Z := match a with AV v => Ok v | AR l => rd h l end.
Definition add_to (h : heap) (l : loc) (n : Z) : res (heap * Z) := v <- rd h l ;; Ok (wr h l (v + n), v + n).
Definition demo : prog := mkP
  (fun i h => add_to h 0 1)
  (fun i a h => v <- av h a ;; Ok (h, v))
  (fun i o h => add_to h o 1)
  (fun i o a h => v <- av h a ;; add_to h o v)
  (fun i o a b h => v <- av h a ;; w <- av h b ;; add_to h o (v + w))
  (fun c s args h => Ok (s + 1, h, s))
  (fun i => match i with O => (ByVal, 0%nat) | S O => (ByCRef, 0%nat) | _ => (ByRef, 0%nat) end)
  (fun i => (ByVal, 0%nat))
  (fun i => Nat.eqb i 0)
  (fun i => Nat.eqb i 0)
  (fun _ _ v => v).
(** A reference to a copy of a reference to a bound member function: the hypotheses of C228 are met, and the object is counted up. *)
Definition demo_heap : heap := [Some (CVal 0 5); Some (CFun (gen_bound_mem0 0 0)); Some (CFun (NCopy (NRef 1)))].
Example C228_case :
  behind demo_heap (NRef 2) (gen_bound_mem0 0 0) 3 /\ fits demo_heap 3 (NRef 2) 0 /\
  call 4 demo (NRef 2) [] demo_heap = Ok (NRef 2, wr demo_heap 0 6, 6).
Proof.
  split; [|split; [|reflexivity]].
  - apply (be_nref demo_heap 2 (NCopy (NRef 1))); [reflexivity|]. apply be_ncopy.
    apply (be_nref demo_heap 1 (gen_bound_mem0 0 0)); [reflexivity|]. apply be_self.
  - cbn. split; [reflexivity|]. intros g Hg. cbn in Hg. injection Hg as <-. cbn. split; [split; reflexivity|]. split; [reflexivity|].
    intros g Hg. injection Hg as <-. cbn. split; exact I.
Qed.
Example C228_history_case : calls 1 demo (gen_free0 0) (repeat [] 3) demo_heap = Ok (gen_free0 0, wr demo_heap 0 8, [6; 7; 8]).
Proof. reflexivity. Qed.

(** * C229: copies keep their own state, references share it *)

(** Calling an object of the caller's class in place: its state is read, its operator() runs, its state is stored. *)
Definition in_place (p : prog) (l : loc) (args : list arg) (h : heap) : res (heap * Z) :=
  match object h l with
  | Some (CFun (User c s)) => x <- p_user p c s args h ;; Ok (upd l (Some (CFun (User c (fst (fst x))))) (snd (fst x)), snd x)
  | _ => UB
  end.
Fixpoint in_place_all (p : prog) (l : loc) (ll : list (list arg)) (h : heap) : res (heap * list Z) :=
  match ll with
  | [] => Ok (h, [])
  | a :: tl => x <- in_place p l a h ;; y <- in_place_all p l tl (fst x) ;; Ok (fst y, snd x :: snd y)
  end.
(** operator() of the caller's class leaves other function objects alone. *)
Definition functors_keep (p : prog) : Prop :=
  forall c s args h s1 h1 r, p_user p c s args h = Ok (s1, h1, r) -> keeps_functions h h1.
(** Calls one after the other, each through its own wrapper. *)
Fixpoint through (fuel : nat) (p : prog) (l : list (fobj * list arg)) (h : heap) : res (heap * list Z) :=
  match l with
  | [] => Ok (h, [])
  | (f, a) :: tl => x <- call fuel p f a h ;; y <- through fuel p tl (snd (fst x)) ;; Ok (fst y, snd x :: snd y)
  end.
(** A wrapper that refers to the object at l. *)
Definition refers (l : loc) (f : fobj) (a : list arg) : Prop :=
  (f = make_nref (rw_ref l) /\ a = []) \/ (exists v x b, make_uref v x (rw_ref l) = Made f /\ a = [b]).

Lemma refers_call k p l f a h c s : refers l f a -> object h l = Some (CFun (User c s)) ->
  call (S (S k)) p f a h = (x <- in_place p l a h ;; Ok (f, fst x, snd x)).
Proof.
  intros [[-> ->]|(v & x & b & HU & ->)] HL.
  - unfold make_nref, rw_reference, rw_ref, in_place. rewrite HL. cbn [call]. rewrite <- object_cell, HL.
    destruct (p_user p c s [] h) as [[[s1 h1] r]|e|]; reflexivity.
  - assert (f = URef l) as -> by (destruct v, x; cbn in HU; try discriminate; injection HU as <-; reflexivity).
    unfold in_place. rewrite HL. cbn [call]. rewrite <- object_cell, HL.
    destruct (p_user p c s [b] h) as [[[s1 h1] r]|e|]; reflexivity.
Qed.

Theorem C229_references_share : forall p l ws k h c s,
  functors_keep p -> object h l = Some (CFun (User c s)) ->
  Forall (fun w => refers l (fst w) (snd w)) ws ->
  through (S (S k)) p ws h = in_place_all p l (map snd ws) h.
Proof.
  intros p l ws k h c s HP. revert h s. induction ws as [|[f a] ws IH]; intros h s HL HF; [reflexivity|].
  inversion HF as [|? ? HR HF1]; subst. cbn [through map in_place_all snd fst] in *.
  rewrite (refers_call _ _ _ _ _ _ _ _ HR HL). unfold in_place. rewrite HL.
  destruct (p_user p c s a h) as [[[s1 h1] r]|e|] eqn:E; try reflexivity. cbn [bind fst snd].
  assert (HL1 : (l < length h1)%nat) by (eapply object_len, (HP _ _ _ _ _ _ _ E), HL).
  rewrite (IH _ s1) by (exact HF1 || (apply object_upd_eq; exact HL1)). reflexivity.
Qed.
Print Assumptions C229_references_share.

(** The results of the state of one object, run on its own. *)
Fixpoint alone (p : prog) (c : nat) (s : Z) (ll : list (list arg)) (h : heap) : res (Z * heap * list Z) :=
  match ll with
  | [] => Ok (s, h, [])
  | a :: tl => x <- p_user p c s a h ;; y <- alone p c (fst (fst x)) tl (snd (fst x)) ;; Ok (fst (fst y), snd (fst y), snd x :: snd y)
  end.
Theorem C229_copies_are_separate : forall p l c s k n h f1 h1 rs,
  functors_keep p -> object h l = Some (CFun (User c s)) ->
  calls (S (S k)) p (NCopy (User c s)) (repeat [] n) h = Ok (f1, h1, rs) ->
  object h1 l = Some (CFun (User c s)) /\ length rs = n /\
  exists s1, f1 = NCopy (User c s1) /\ alone p c s (repeat [] n) h = Ok (s1, h1, rs).
Proof.
  intros p l c s k n h f1 h1 rs HP HL.
  assert (G : forall n t h0, object h0 l = Some (CFun (User c s)) ->
    calls (S (S k)) p (NCopy (User c t)) (repeat [] n) h0 = Ok (f1, h1, rs) ->
    object h1 l = Some (CFun (User c s)) /\ length rs = n /\ exists s1, f1 = NCopy (User c s1) /\ alone p c t (repeat [] n) h0 = Ok (s1, h1, rs)).
  { clear h HL n. intros n. revert rs. induction n as [|n IH]; intros rs t h0 HL HC.
    - cbn in HC. injection HC as <- <- <-. split; [exact HL|]. split; [reflexivity|]. exists t. split; reflexivity.
    - cbn [repeat calls] in HC. cbn [call] in HC. destruct (p_user p c t [] h0) as [[[t1 h2] r]|e|] eqn:E; try discriminate.
      cbn [bind fst snd] in HC.
      destruct (calls (S (S k)) p (NCopy (User c t1)) (repeat [] n) h2) as [[[f2 h3] rs2]|e|] eqn:E2; try discriminate.
      cbn [bind fst snd] in HC. injection HC as -> -> <-.
      destruct (IH rs2 t1 h2 (HP _ _ _ _ _ _ _ E _ _ HL) E2) as (H1 & H2 & s1 & H3 & H4).
      split; [exact H1|]. split; [cbn; lia|]. exists s1. split; [exact H3|]. cbn [repeat alone]. rewrite E. cbn [bind fst snd]. rewrite H4. reflexivity. }
  apply G. exact HL.
Qed.
Print Assumptions C229_copies_are_separate.
(** The same for copies that take an argument. *)
Theorem C229_unary_copies_are_separate : forall p l c s k (xs : list arg) h f1 h1 rs,
  functors_keep p -> object h l = Some (CFun (User c s)) ->
  calls (S (S k)) p (UCopy (User c s)) (map (fun a => [a]) xs) h = Ok (f1, h1, rs) ->
  object h1 l = Some (CFun (User c s)) /\ length rs = length xs /\
  exists s1, f1 = UCopy (User c s1) /\ alone p c s (map (fun a => [a]) xs) h = Ok (s1, h1, rs).
Proof.
  intros p l c s k xs h f1 h1 rs HP HL.
  assert (G : forall xs t h0, object h0 l = Some (CFun (User c s)) ->
    calls (S (S k)) p (UCopy (User c t)) (map (fun a => [a]) xs) h0 = Ok (f1, h1, rs) ->
    object h1 l = Some (CFun (User c s)) /\ length rs = length xs /\ exists s1, f1 = UCopy (User c s1) /\ alone p c t (map (fun a => [a]) xs) h0 = Ok (s1, h1, rs)).
  { clear h HL xs. intros xs. revert rs. induction xs as [|a xs IH]; intros rs t h0 HL HC.
    - cbn in HC. injection HC as <- <- <-. split; [exact HL|]. split; [reflexivity|]. exists t. split; reflexivity.
    - cbn [map calls] in HC. cbn [call] in HC. destruct (p_user p c t [a] h0) as [[[t1 h2] r]|e|] eqn:E; try discriminate.
      cbn [bind fst snd] in HC.
      destruct (calls (S (S k)) p (UCopy (User c t1)) (map (fun a => [a]) xs) h2) as [[[f2 h3] rs2]|e|] eqn:E2; try discriminate.
      cbn [bind fst snd] in HC. injection HC as -> -> <-.
      destruct (IH rs2 t1 h2 (HP _ _ _ _ _ _ _ E _ _ HL) E2) as (H1 & H2 & s1 & H3 & H4).
      split; [exact H1|]. split; [cbn; lia|]. exists s1. split; [exact H3|]. cbn [map alone]. rewrite E. cbn [bind fst snd]. rewrite H4. reflexivity. }
  apply G. exact HL.
Qed.
Print Assumptions C229_unary_copies_are_separate.

(** After the original has gone a reference is undefined; a copy is not affected. *)
Theorem C229_lifetime : forall p l k h c s,
  call (S (S k)) p (make_nref (rw_ref l)) [] (kill l h) = UB /\
  call (S (S k)) p (NCopy (User c s)) [] (kill l h) = (x <- p_user p c s [] (kill l h) ;; Ok (NCopy (User c (fst (fst x))), snd (fst x), snd x)).
Proof.
  intros p l k h c s. split.
  - unfold make_nref, rw_reference, rw_ref. cbn [call]. rewrite <- object_cell, object_kill. reflexivity.
  - cbn [call]. destruct (p_user p c s [] (kill l h)) as [[[s1 h1] r]|e|]; reflexivity.
Qed.
Print Assumptions C229_lifetime.

(** The full claim, that a wrapped function object can be called for as long as the wrapper lives, fails for references. *)
Theorem C229_lifetime_refuted : exists p h l w c s,
  object h l = Some (CFun (User c s)) /\ refers l w [] /\ (forall k, call (S (S k)) p w [] h <> UB) /\ forall k, call (S (S k)) p w [] (kill l h) = UB.
Proof.
  exists demo, [Some (CFun (User 0 3))], 0%nat, (NRef 0), 0%nat, 3. split; [reflexivity|]. split; [left; split; reflexivity|].
  split; intros k; [cbn; discriminate|reflexivity].
Qed.
Print Assumptions C229_lifetime_refuted.

Lemma demo_keep : functors_keep demo.
Proof. intros c s args h s1 h1 r H. cbn in H. injection H as <- <- <-. intros l f HL. exact HL. Qed.
Example C229_case :
  through 2 demo [(NRef 0, []); (URef 0, [AV 1]); (NRef 0, [])] [Some (CFun (User 0 3))] = Ok ([Some (CFun (User 0 6))], [3; 4; 5]).
Proof. reflexivity. Qed.
Example C229_copy_case : calls 2 demo (NCopy (User 0 3)) (repeat [] 2) [Some (CFun (User 0 3))] = Ok (NCopy (User 0 5), [Some (CFun (User 0 3))], [3; 4]).
Proof. reflexivity. Qed.

(** * C230: bound arguments *)

(** The value a parameter of type t gets from a v of type ti. *)
Definition value_of (p : prog) (ti t : ctype) (v : Z) : Z := if Nat.eqb ti t then v else p_conv p ti t v.

(** A parameter taken by value: the value at the time of binding is used for ever, whatever becomes of the variable. *)
Theorem C230_value : forall p i t const l ti v h fuel h1,
  p_par1 p i = (ByVal, t) -> object h l = Some (CVal ti v) ->
  exists f, gen_bound_free1 p i const l h = Made (Ok (f, h)) /\
            call (S fuel) p f [] h1 = (x <- p_free1 p i (AV (value_of p ti t v)) h1 ;; Ok (f, fst x, snd x)).
Proof.
  intros p i t const l ti v h fuel h1 HP HL. unfold gen_bound_free1, bind_arg. rewrite HP, <- object_cell, HL. cbn [fst snd].
  eexists. split; [reflexivity|]. reflexivity.
Qed.
Print Assumptions C230_value.
(** The same for temporaries. *)
Theorem C230_value_temporary : forall p i t ti v h fuel h1,
  p_par1 p i = (ByVal, t) ->
  exists f h0, gen_bound_free1_tmp p i ti v h = Made (Ok (f, h0)) /\ (forall l, (l < length h)%nat -> object h0 l = object h l) /\
            call (S fuel) p f [] h1 = (x <- p_free1 p i (AV (value_of p ti t v)) h1 ;; Ok (f, fst x, snd x)).
Proof.
  intros p i t ti v h fuel h1 HP. unfold gen_bound_free1_tmp, gen_bound_free1, bind_arg. rewrite HP.
  assert (HL : cell_at (h ++ [Some (CVal ti v)]) (length h) = Some (CVal ti v)).
  { unfold cell_at. rewrite nth_error_app2 by lia. rewrite Nat.sub_diag. reflexivity. }
  rewrite HL. cbn [fst snd bind]. eexists _, _. split; [reflexivity|]. split; [|reflexivity].
  intros l Hl. rewrite object_kill_neq by lia. unfold object. rewrite nth_error_app1 by exact Hl. reflexivity.
Qed.
Print Assumptions C230_value_temporary.
(** A reference to a variable of the parameter's own type: the call works on the variable as it then is. *)
Theorem C230_reference : forall p i md t const l v h fuel h1,
  p_par1 p i = (md, t) -> md <> ByVal -> (md = ByRef -> const = false) -> object h l = Some (CVal t v) ->
  exists f, gen_bound_free1 p i const l h = Made (Ok (f, h)) /\
            call (S fuel) p f [] h1 = (x <- p_free1 p i (AR l) h1 ;; Ok (f, fst x, snd x)).
Proof.
  intros p i md t const l v h fuel h1 HP HM HC HL. unfold gen_bound_free1, bind_arg. rewrite HP, <- object_cell, HL. cbn [fst snd].
  rewrite Nat.eqb_refl. destruct md; [congruence| |].
  - rewrite HC by reflexivity. eexists. split; [reflexivity|]. reflexivity.
  - eexists. split; [reflexivity|]. reflexivity.
Qed.
Print Assumptions C230_reference.

(** A temporary, or a variable of another type, bound to a const reference: the object that is bound is dead when the function object is
    first called. *)
Theorem C230_temporary_dead : forall p i t ti v h f h1,
  p_par1 p i = (ByCRef, t) -> gen_bound_free1_tmp p i ti v h = Made (Ok (f, h1)) ->
  exists l, f = BFree i (AR l) /\ object h1 l = None.
Proof.
  intros p i t ti v h f h1 HP. unfold gen_bound_free1_tmp, gen_bound_free1, bind_arg. rewrite HP.
  assert (HL : cell_at (h ++ [Some (CVal ti v)]) (length h) = Some (CVal ti v)).
  { unfold cell_at. rewrite nth_error_app2 by lia. rewrite Nat.sub_diag. reflexivity. }
  rewrite HL. cbn [fst snd]. destruct (Nat.eqb ti t); cbn [bind fst snd]; intros H; injection H as <- <-.
  - exists (length h). split; [reflexivity|]. apply object_kill.
  - eexists. split; [reflexivity|]. rewrite object_kill_neq by (rewrite app_length; cbn; lia).
    unfold object. rewrite nth_error_app2 by lia. rewrite Nat.sub_diag. reflexivity.
Qed.
Print Assumptions C230_temporary_dead.
Theorem C230_conversion_dead : forall p i t const l ti v h f h1,
  p_par1 p i = (ByCRef, t) -> object h l = Some (CVal ti v) -> ti <> t -> gen_bound_free1 p i const l h = Made (Ok (f, h1)) ->
  exists m, f = BFree i (AR m) /\ object h1 m = None.
Proof.
  intros p i t const l ti v h f h1 HP HL HT. unfold gen_bound_free1, bind_arg. rewrite HP, <- object_cell, HL. cbn [fst snd].
  destruct (Nat.eqb_spec ti t) as [E|_]; [contradiction|]. cbn [bind fst snd]. intros H; injection H as <- <-.
  exists (length h). split; [reflexivity|]. unfold object. rewrite nth_error_app2 by lia. rewrite Nat.sub_diag. reflexivity.
Qed.
Print Assumptions C230_conversion_dead.
(** function_objects.hpp:1367-1368 promises that temporaries pass "unscathed" to a const int&: a function that returns its argument is undefined. *)
Theorem C230_temporary_refuted : exists p i v f h1,
  p_par1 p i = (ByCRef, 0%nat) /\ (forall w h, p_free1 p i (AV w) h = Ok (h, w)) /\
  gen_bound_free1_tmp p i 0 v [] = Made (Ok (f, h1)) /\ forall fuel, call fuel p f [] h1 = UB.
Proof.
  exists demo, 1%nat, 7, (BFree 1 (AR 0)), [None]. split; [reflexivity|]. split; [reflexivity|]. split; [reflexivity|].
  intros [|k]; reflexivity.
Qed.
Print Assumptions C230_temporary_refuted.
(** A literal bound to a T& parameter does not compile. *)
Theorem C230_literal_reference : forall p i t ti v h, p_par1 p i = (ByRef, t) -> gen_bound_free1_tmp p i ti v h = Ill.
Proof.
  intros p i t ti v h HP. unfold gen_bound_free1_tmp, gen_bound_free1, bind_arg. rewrite HP.
  assert (HL : cell_at (h ++ [Some (CVal ti v)]) (length h) = Some (CVal ti v)).
  { unfold cell_at. rewrite nth_error_app2 by lia. rewrite Nat.sub_diag. reflexivity. }
  rewrite HL. cbn [fst snd]. rewrite andb_false_r. reflexivity.
Qed.
Print Assumptions C230_literal_reference.
Example C230_case : gen_bound_free1 demo 0 false 0 [Some (CVal 0 9)] = Made (Ok (BFree 0 (AV 9), [Some (CVal 0 9)])) /\
  call 1 demo (BFree 0 (AV 9)) [] [None] = Ok (BFree 0 (AV 9), [None], 9) /\
  gen_bound_free1 demo 2 false 0 [Some (CVal 0 9)] = Made (Ok (BFree 2 (AR 0), [Some (CVal 0 9)])) /\
  call 1 demo (BFree 2 (AR 0)) [] [Some (CVal 0 4)] = Ok (BFree 2 (AR 0), [Some (CVal 0 4)], 4).
Proof. repeat split. Qed.

(** * C231: what can be bound *)

(** Member functions that return void can be bound with their object and argument, and the bound object does what they do. *)
Theorem C231_void : forall p i o const l t ti v h fuel h1,
  p_void1 p i = true -> p_mpar1 p i = (ByVal, t) -> object h l = Some (CVal ti v) ->
  exists f, gen_bound_mem1 p i o const l h = Made (Ok (f, h)) /\
            call (S fuel) p f [] h1 = (x <- on_object h1 o (p_mem1 p i o (AV (value_of p ti t v)) h1) ;; Ok (f, fst x, snd x)).
Proof.
  intros p i o const l t ti v h fuel h1 HV HP HL. unfold gen_bound_mem1, bind_arg. rewrite HV, HP, <- object_cell, HL. cbn [fst snd bind].
  eexists. split; reflexivity.
Qed.
Print Assumptions C231_void.
(** The documentation gives these classes a result type; a member function that returns a value cannot be bound by any of the three. *)
Theorem C231_value_refuted : exists p i o l h v,
  object h l = Some (CVal 0 v) /\ p_mpar1 p i = (ByVal, 0%nat) /\ (forall a, exists h1 r, p_mem1 p i o (AV a) h = Ok (h1, r)) /\
  gen_part_mem1 p i o = Ill /\ gen_bound_mem1 p i o false l h = Ill /\ make_part_mem2 p i o = Ill.
Proof.
  exists demo, 1%nat, 0%nat, 0%nat, [Some (CVal 0 9)], 9. split; [reflexivity|]. split; [reflexivity|].
  split; [intros a; eexists _, _; reflexivity|]. repeat split.
Qed.
Print Assumptions C231_value_refuted.
Theorem C231_value_never : forall p i o const l h, p_void1 p i = false ->
  gen_part_mem1 p i o = Ill /\ gen_bound_mem1 p i o const l h = Ill.
Proof. intros p i o const l h H. unfold gen_part_mem1, gen_bound_mem1. rewrite H. split; reflexivity. Qed.
Print Assumptions C231_value_never.
(** ReferenceWrapper::pointer() does not compile for ordinary types; a unary reference to a function object that returns void is only made when the
    wrapper's class is named instead of the class of the function object. *)
Theorem C231_wrappers_refuted : forall l,
  rw_reference (rw_ref l) = l /\ rw_pointer false (rw_ref l) = Ill /\ make_uref true XFunction (rw_ref l) = Ill /\
  make_uref false XFunction (rw_ref l) = Made (URef l) /\ make_uref true XWrapper (rw_ref l) = Made (URef l).
Proof. intros l. repeat split. Qed.
Print Assumptions C231_wrappers_refuted.

(** * C232: Parameter *)

(** The value last given before a moment, or the first one. *)
Fixpoint last_given {T} (first : T) (l : list (pop T)) : T :=
  match l with
  | [] => first
  | o :: tl => last_given (match o with PAssign v | PCall v => v | _ => first end) tl
  end.
Theorem C232_parameter : forall (T : Type) (v : T) before o after,
  let run := snd (param_run (param_of v) (before ++ o :: after)) in
  length run = length (before ++ o :: after) /\
  nth_error run (length before) = Some (match o with PGet | PConvert => Some (last_given v before) | _ => None end).
Proof.
  intros T v before o after. cbv zeta. unfold param_of. revert v. induction before as [|b before IH]; intros v.
  - cbn. assert (G : forall l (s : T), length (snd (param_run s l)) = length l) by (intros l; induction l as [|q l IHl]; intros s; cbn; [reflexivity|rewrite IHl; reflexivity]).
    split; [rewrite G; reflexivity|]. destruct o; reflexivity.
  - destruct (IH (fst (param_step v b))) as [H1 H2]. cbn [app param_run length snd fst nth_error last_given]. split; [rewrite H1; reflexivity|].
    rewrite H2. destruct b; reflexivity.
Qed.
Print Assumptions C232_parameter.
Example C232_case : snd (param_run (param_new 0) [PGet; PCall 4; PAssign 5; PConvert]) = [Some 0; None; None; Some 5].
Proof. reflexivity. Qed.

(** * C233: Singleton *)

(** In every schedule of any number of threads: never more than one construction is completed, a thread that has the instance has it after the
    construction was completed, and at most one constructor runs at a time. *)
Definition singleton_inv (w : sworld) : Prop :=
  (sw_made w = match sw_guard w with Built => 1 | _ => 0 end)%nat /\
  (forall t, sw_threads w t = Returned -> sw_guard w = Built) /\
  (forall t, sw_threads w t = Constructing <-> sw_guard w = Building t).
Lemma singleton_step w e w1 : singleton_inv w -> FObjModel.s_step w e = Some w1 -> singleton_inv w1.
Proof.
  intros (HM & HR & HC) HE. destruct e as [t|t|t|t|t]; cbn in HE.
  - destruct (sw_threads w t) eqn:ET; try discriminate. injection HE as <-. unfold singleton_inv; cbn. split; [exact HM|].
    split; intros u; unfold put; destruct (Nat.eqb_spec u t) as [->|Hu]; try (apply HR); try (apply HC); [discriminate|].
    split; [discriminate|]. intros H. apply HC in H. congruence.
  - destruct (sw_threads w t) eqn:ET; try discriminate. destruct (sw_guard w) as [|v|] eqn:EG; try discriminate; injection HE as <-; unfold singleton_inv; cbn.
    + split; [exact HM|]. split; intros u; unfold put; destruct (Nat.eqb_spec u t) as [->|Hu].
      * discriminate.
      * intros H. apply HR in H. discriminate.
      * split; reflexivity.
      * split; [intros H; apply HC in H; discriminate|]. intros H. congruence.
    + split; [exact HM|]. split; intros u; unfold put; destruct (Nat.eqb_spec u t) as [->|Hu].
      * reflexivity.
      * apply HR.
      * split; discriminate.
      * split; [intros H; apply HC in H; discriminate|discriminate].
  - destruct (sw_threads w t) eqn:ET; try discriminate. destruct (sw_guard w) as [|v|] eqn:EG; try discriminate.
    destruct (Nat.eqb_spec t v) as [<-|]; [|discriminate]. injection HE as <-. unfold singleton_inv; cbn. split; [rewrite HM; reflexivity|].
    split; intros u; unfold put; destruct (Nat.eqb_spec u t) as [->|Hu].
    + reflexivity.
    + reflexivity.
    + split; discriminate.
    + split; [intros H; apply HC in H; congruence|discriminate].
  - destruct (sw_threads w t) eqn:ET; try discriminate. destruct (sw_guard w) as [|v|] eqn:EG; try discriminate.
    destruct (Nat.eqb_spec t v) as [<-|]; [|discriminate]. injection HE as <-. unfold singleton_inv; cbn. split; [exact HM|].
    split; intros u; unfold put; destruct (Nat.eqb_spec u t) as [->|Hu].
    + discriminate.
    + intros H. apply HR in H. discriminate.
    + split; discriminate.
    + split; [intros H; apply HC in H; congruence|discriminate].
  - destruct (sw_threads w t) eqn:ET; try discriminate. injection HE as <-. unfold singleton_inv; cbn. split; [exact HM|].
    split; intros u; unfold put; destruct (Nat.eqb_spec u t) as [->|Hu].
    + discriminate.
    + apply HR.
    + split; [discriminate|]. intros H. apply HC in H. congruence.
    + apply HC.
Qed.
Theorem C233_one_instance : forall l w, FObjModel.s_run s_start l = Some w ->
  (sw_made w <= 1)%nat /\ (forall t, sw_threads w t = Returned -> sw_made w = 1%nat) /\
  (forall t u, sw_threads w t = Constructing -> sw_threads w u = Constructing -> t = u) /\
  (forall t u, sw_threads w t = Constructing -> sw_threads w u <> Returned).
Proof.
  intros l w H.
  assert (G : singleton_inv w).
  { assert (G0 : singleton_inv s_start) by (unfold singleton_inv; cbn; split; [reflexivity|]; split; [discriminate|]; split; discriminate).
    revert H G0. generalize s_start. induction l as [|e l IH]; intros w0 H G0; cbn in H; [injection H as <-; exact G0|].
    destruct (FObjModel.s_step w0 e) as [w1|] eqn:E; [|discriminate]. eapply IH; [exact H|]. eapply singleton_step; [exact G0|exact E]. }
  destruct G as (HM & HR & HC). split; [|split; [|split]].
  - rewrite HM. destruct (sw_guard w); lia.
  - intros t Ht. rewrite HM, (HR t Ht). reflexivity.
  - intros t u Ht Hu. apply HC in Ht, Hu. congruence.
  - intros t u Ht Hu. apply HC in Ht. apply HR in Hu. congruence.
Qed.
Print Assumptions C233_one_instance.
(** Nobody waits for ever: while a thread wants the instance some thread can move, and a thread that meets a finished construction gets it. *)
Theorem C233_progress : forall l w t, FObjModel.s_run s_start l = Some w -> sw_threads w t = Entering ->
  FObjModel.s_step w (SGo t) <> None \/ exists u, sw_threads w u = Constructing /\ FObjModel.s_step w (SFinish u) <> None /\ FObjModel.s_step w (SFail u) <> None.
Proof.
  intros l w t H HT.
  assert (G : singleton_inv w).
  { assert (G0 : singleton_inv s_start) by (unfold singleton_inv; cbn; split; [reflexivity|]; split; [discriminate|]; split; discriminate).
    revert H G0. generalize s_start. clear HT. induction l as [|e l IH]; intros w0 H G0; cbn in H; [injection H as <-; exact G0|].
    destruct (FObjModel.s_step w0 e) as [w1|] eqn:E; [|discriminate]. eapply IH; [exact H|]. eapply singleton_step; [exact G0|exact E]. }
  destruct G as (HM & HR & HC). cbn [FObjModel.s_step]. rewrite HT. destruct (sw_guard w) as [|u|] eqn:EG.
  - left. discriminate.
  - right. exists u. assert (HU : sw_threads w u = Constructing) by (apply HC; reflexivity). split; [exact HU|]. rewrite HU, Nat.eqb_refl. split; discriminate.
  - left. discriminate.
Qed.
Print Assumptions C233_progress.
Example C233_case : exists w, FObjModel.s_run s_start [SEnter 0; SEnter 1; SGo 1; SFail 1; SGo 0; SFinish 0; SEnter 1; SGo 1] = Some w /\
  sw_threads w 0%nat = Returned /\ sw_threads w 1%nat = Returned /\ sw_begun w = 2%nat /\ sw_made w = 1%nat.
Proof. eexists. repeat split. Qed.
