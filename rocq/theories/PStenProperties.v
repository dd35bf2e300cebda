(** C211, C212: windows on plain buffers of bytes. *)
From Verif Require Import Base PStenModel PStenProofs.
Open Scope Z_scope.

(** The windows are shared views of the one buffer: whatever statements are made through whatever stencils, the buffer, the
    windows and everything read are those of the specification, in debug and release builds, as long as windows lie in the
    buffer and indices in their windows. Full statement: also for at on the first byte of the buffer, which is refuted below. *)
Theorem C211_windows_partial (debug : bool) (len : Z) (m : list Z) (l : list pop) :
  len <= Zlen m -> len < 2 ^ 64 -> w_all_ok len m [] l ->
  exists t, p_run debug len m [] l = Ok (fst (fst (w_run m [] l)), t, snd (w_run m [] l)) /\
    forall k w, nth_error (snd (fst (w_run m [] l))) k = Some w -> exists s, nth_error t k = Some s /\ p_len s = len /\ p_b s = fst w /\ p_e s = fst w + snd w.
Proof.
  intros L LB K. exists (map (view len) (snd (fst (w_run m [] l)))). split.
  - apply (follow_run debug len LB l m [] L); [intros w []|exact K].
  - intros k w E. exists (view len w). rewrite nth_error_map, E. auto.
Qed.
Print Assumptions C211_windows_partial.
Definition shared : list pop := [PMake 1 4; PSub 0 1 2; PInit 1 70 [71]; PGet 0 2; PSet 0 1 72; PFront 1; PBack 1; PAll 0; PResettle 0 0 2; PSize 0; PAssign 1 0; PAll 1; PAt 1 1].
Example C211_case :
  w_all_ok 6 [10; 11; 12; 13; 14; 15] [] shared /\
  snd (w_run [10; 11; 12; 13; 14; 15] [] shared) = [71; 72; 71; 11; 72; 71; 14; 2; 10; 11; 11].
Proof. split; [cbn; unfold Zlen; cbn; lia|reflexivity]. Qed.

(** at refuses the first byte of the buffer. *)
Theorem C211_at_first_byte_refuted : exists debug len m s, 0 < len <= Zlen m /\ inside len s /\ p_b s = 0 /\ 0 < p_e s /\ p_at s 0 = Throw OutOfRangeError /\ load m (p_b s + 0) = Ok 10 /\ p_make debug len 0 2 = Ok s.
Proof. exists true, 3, [10; 11; 12], (mkP 3 0 2). unfold inside. cbn. repeat split; lia. Qed.
Print Assumptions C211_at_first_byte_refuted.

(** With the checks of a debug build, any program is stopped by an exception before it reads or writes outside the buffer,
    if no exception was caught earlier, except for the index one past the buffer, the front of a window that begins at the end
    of the buffer and the back of a window that ends at its beginning. Full statement: without those exceptions, refuted below. *)
Theorem C212_checked_partial (len : Z) (m : list Z) (l : list pop) :
  len <= Zlen m -> len < 2 ^ 64 -> w_calm len [] l ->
  match p_run true len m [] l with
  | Ok (m', _, _) => Zlen m' = Zlen m /\ (forall i, len <= i -> zget m' i = zget m i)
  | Throw e => e = OutOfRangeError
  | UB => False
  end.
Proof.
  intros L LB C. pose proof (checked_run len LB l m [] L ltac:(intros s []) C) as K. change (map (view len) []) with (@nil psten) in K. destruct (p_run true len m [] l) as [[[m' t'] out]|e|]; auto. destruct K as [K1 K2]. split; [exact K1|]. intros i I. apply K2. lia.
Qed.
Print Assumptions C212_checked_partial.
Example C212_case : w_calm 3 [] [PMake 1 1; PSet 0 1 5; PInit 0 7 []; PGet 0 8] /\ p_run true 3 [1; 2; 3; 4] [] [PMake 1 1; PSet 0 1 5; PInit 0 7 []] = Ok ([1; 7; 5; 4], [mkP 3 1 2], []) /\
  p_run true 3 [1; 2; 3; 4] [] [PMake 1 1; PSet 0 1 5; PInit 0 7 []; PGet 0 8] = Throw OutOfRangeError.
Proof. repeat split; cbn; try lia; try reflexivity. Qed.

Theorem C212_one_past_refuted : exists len m i s, len = Zlen m /\ p_make true len 0 len = Ok s /\ i = p_size s /\ p_step true len m [s] (PGet 0 i) = UB /\ p_step true len m [s] (PSet 0 i 7) = UB.
Proof. exists 2, [1; 2], 2, (mkP 2 0 2). repeat split. Qed.
Print Assumptions C212_one_past_refuted.
Theorem C212_empty_window_refuted : exists len m s s', len = Zlen m /\ p_make true len 0 0 = Ok s /\ p_step true len m [s] (PBack 0) = UB /\ p_make true len len 0 = Ok s' /\ p_step true len m [s'] (PFront 0) = UB.
Proof. exists 2, [1; 2], (mkP 2 0 0), (mkP 2 2 2). repeat split. Qed.
Print Assumptions C212_empty_window_refuted.
(** Windows of windows, indices and at are held to the buffer, not to the window. *)
Theorem C212_leaves_window_refuted : exists len m s s' m', len = Zlen m /\ p_make true len 1 2 = Ok s /\ p_sub true s 3 2 = Ok s' /\ p_b s' >= p_e s /\
  p_step true len m [s] (PSet 0 4 99) = Ok (m', [s], []) /\ p_size s = 2 /\ m' <> m /\ p_step true len m [s] (PAt 0 4) = Ok (m, [s], [6]).
Proof. exists 6, [1; 2; 3; 4; 5; 6], (mkP 6 1 3), (mkP 6 4 6), [1; 2; 3; 4; 5; 99]. repeat split; cbn; lia || congruence. Qed.
Print Assumptions C212_leaves_window_refuted.
(** A resettle that throws has changed the window: if the exception is caught, filling it runs over the end of the buffer. *)
Theorem C212_failed_resettle_refuted : exists len m s s', len = Zlen m /\ p_make true len 0 1 = Ok s /\ p_resettle true s 0 9 = (s', Throw OutOfRangeError) /\ s' <> s /\ p_size s' = 9 /\ p_init true m s' 1 [2; 3; 4] = UB.
Proof. exists 3, [1; 2; 3], (mkP 3 0 1), (mkP 3 0 9). repeat split. discriminate. Qed.
Print Assumptions C212_failed_resettle_refuted.
(** Pointers given in the wrong order are accepted, and the size is enormous. *)
Theorem C212_reversed_refuted : exists len m s, len = Zlen m /\ p_ptrs true len 2 1 = Ok s /\ p_size s = 2 ^ 64 - 1 /\ p_init true m s 1 [2; 3] = UB /\ p_all true m s = UB.
Proof. exists 3, [1; 2; 3], (mkP 3 2 1). repeat split. Qed.
Print Assumptions C212_reversed_refuted.
(** Nothing is checked in a release build. *)
Theorem C212_release_refuted : exists len m s, len = Zlen m /\ p_make false len 1 9 = Ok s /\ p_size s = 9 /\ p_init false m s 1 [2; 3] = UB /\ p_step false len m [s] (PGet 0 5) = UB.
Proof. exists 3, [1; 2; 3], (mkP 3 1 10). repeat split. Qed.
Print Assumptions C212_release_refuted.

(** C211, at(), exactly: an element of the window is refused if and only if it is the first byte of the buffer; an element outside the window is handed
    out if and only if it is a later byte of the buffer. *)
Theorem C211_at_exactly : forall len s i, inside len s ->
  (0 <= i < p_e s - p_b s -> (p_at s i = Ok (p_b s + i) <-> p_b s + i <> 0) /\ (p_at s i = Throw OutOfRangeError <-> p_b s + i = 0)) /\
  (~ 0 <= i < p_e s - p_b s -> ((exists p, p_at s i = Ok p) <-> 0 < p_b s + i < len) /\ p_at s i <> UB).
Proof.
  intros len s i (L & B & E). unfold p_at. rewrite L.
  destruct (Z.leb_spec (p_b s + i) 0); [|destruct (Z.leb_spec len (p_b s + i))]; (split; intros R); split; try split; intros X; try discriminate; try lia; try reflexivity;
    try (destruct X as [? X]; discriminate); try (exfalso; lia); eauto.
Qed.
Print Assumptions C211_at_exactly.
