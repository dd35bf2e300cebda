(** Theorems about the priority diagnostics (C265). *)
From Coq Require Import String Ascii.
From Verif Require Import Base Numerals ThreadModel ThreadProperties PErrModel OErrModel DiagModel.
Open Scope Z_scope.

(** * Specification *)
(** A C string as characters. *)
Fixpoint chars (s : string) : list Z := match s with EmptyString => [] | String c s' => Z.of_nat (nat_of_ascii c) :: chars s' end.
(** A text made of lines. *)
Definition of_lines (ls : list (list Z)) : list Z := List.concat (map (fun l => l ++ [10]) ls).
(** The name of a level. *)
Definition level_name (p : prio) : string :=
  match p with
  | DefaultP => "Default (Inherited)" | UnknownP => "Unknown" | BackgroundP => "Background" | LowP => "Low" | NormalP => "Normal"
  | HighP => "High" | CriticalP => "Critical" | RT1 => "RealTime1" | RT2 => "RealTime2" | RT3 => "RealTime3" | RT4 => "RealTime4"
  end.
(** The name of a scheduler. *)
Definition scheduler_name (n : Z) : string :=
  match n with 0 => "SCHED_OTHER" | 1 => "SCHED_FIFO [RT]" | 2 => "SCHED_RR [RT]" | 3 => "SCHED_BATCH" | _ => "Unknown" end.
Definition row : list Z := chars "***********************************************************".
(** The lines of a complete report. *)
Definition report (scheduler : Z) (p : prio) (slo shi : list Z) : list (list Z) :=
  [[]; row; chars "*                  System Statistics"; row; [];
   chars "Real Time Priorities [Low,High]............[" ++ slo ++ chars "," ++ shi ++ chars "]";
   chars "Niceness [Low,High]........................[20,-20]"; [];
   row; chars "*                 Priority Statistics"; row; [];
   chars "Scheduler.................................." ++ chars (scheduler_name scheduler);
   chars "Priority..................................." ++ chars (level_name p)].

Lemma scheduler_text n : scheduler_line n = (chars "Scheduler.................................." ++ chars (scheduler_name n)) ++ [10].
Proof.
  unfold scheduler_line. rewrite <- app_assoc. f_equal. unfold scheduler_name.
  destruct n as [|[[?|?|]|[?|?|]|]|]; reflexivity.
Qed.
Lemma level_text p : level_line p = (chars "Priority..................................." ++ chars (level_name p)) ++ [10].
Proof. destruct p; reflexivity. Qed.
Lemma diag_text b a p : an_min a <> -1 -> an_max a <> -1 -> an_sched a <> -1 -> level b a = Gave p ->
  diagnostics b a = Gave (of_lines (report (an_sched a) p (num_str (an_min a)) (num_str (an_max a)))).
Proof.
  intros H1 H2 H3 L. unfold diagnostics. rewrite (proj2 (Z.eqb_neq _ _) H1), (proj2 (Z.eqb_neq _ _) H2), (proj2 (Z.eqb_neq _ _) H3), L. cbn [orb]. f_equal.
  rewrite scheduler_text, level_text. unfold of_lines, report, headline. cbn [map List.concat]. generalize (num_str (an_min a)) (num_str (an_max a)) (chars (scheduler_name (an_sched a))) (chars (level_name p)).
  intros s1 s2 s3 s4. rewrite <- !app_assoc. rewrite ?app_nil_r. reflexivity.
Qed.

(** What the report says: the limits as decimal numbers, the scheduler and, in the last line, the level get_priority answers. *)
Theorem C265_report : forall b a p, an_min a <> -1 -> an_max a <> -1 -> an_sched a <> -1 -> level b a = Gave p ->
  exists slo shi, numeral (an_min a) slo /\ numeral (an_max a) shi /\
    diagnostics b a = Gave (of_lines (report (an_sched a) p slo shi)).
Proof.
  intros b a p H1 H2 H3 L. exists (num_str (an_min a)), (num_str (an_max a)). split; [apply num_str_numeral|]. split; [apply num_str_numeral|].
  now apply diag_text.
Qed.
Print Assumptions C265_report.
Example C265_case : level Debug (mkAns 2 0 1 99 (Some 25) 0) = Gave RT3 /\
  exists t, diagnostics Debug (mkAns 2 0 1 99 (Some 25) 0) = Gave (t ++ chars "[1,99]" ++ [10] ++ chars "Niceness [Low,High]........................[20,-20]" ++ [10; 10] ++
    row ++ [10] ++ chars "*                 Priority Statistics" ++ [10] ++ row ++ [10; 10] ++
    chars "Scheduler..................................SCHED_RR [RT]" ++ [10] ++ chars "Priority...................................RealTime3" ++ [10]).
Proof.
  split; [reflexivity|]. exists ([10] ++ row ++ [10] ++ chars "*                  System Statistics" ++ [10] ++ row ++ [10; 10] ++ chars "Real Time Priorities [Low,High]............").
  vm_compute. reflexivity.
Qed.

(** Different levels give different reports, so the level can be read off. *)
Fixpoint back_to_dot (l : list Z) : list Z := match l with [] => [] | c :: l => if c =? 46 then [] else c :: back_to_dot l end.
Lemma last_name s1 s2 n q : back_to_dot (rev (of_lines (report n q s1 s2))) = 10 :: rev (chars (level_name q)).
Proof.
  assert (P : exists pre, of_lines (report n q s1 s2) = (pre ++ chars "Priority...................................") ++ chars (level_name q) ++ [10]).
  { exists (of_lines (firstn 13 (report n q s1 s2))). unfold of_lines, report. cbn [firstn]. generalize (chars (level_name q)) (chars (scheduler_name n)). intros s3 s4.
    cbn [map List.concat]. rewrite <- !app_assoc. rewrite !app_nil_r. reflexivity. }
  destruct P as [pre ->]. rewrite !rev_app_distr. destruct q; reflexivity.
Qed.
Theorem C265_level_readable : forall b a a' p p' t, an_min a <> -1 -> an_max a <> -1 -> an_sched a <> -1 -> an_min a' <> -1 -> an_max a' <> -1 -> an_sched a' <> -1 ->
  level b a = Gave p -> level b a' = Gave p' -> diagnostics b a = Gave t -> diagnostics b a' = Gave t -> p = p'.
Proof.
  intros b a a' p p' t H1 H2 H3 H4 H5 H6 L L' D D'. rewrite (diag_text b a p H1 H2 H3 L) in D. rewrite (diag_text b a' p' H4 H5 H6 L') in D'. injection D as D. injection D' as D'.
  assert (E : back_to_dot (rev t) = 10 :: rev (chars (level_name p))) by (rewrite <- D; apply last_name).
  assert (E' : back_to_dot (rev t) = 10 :: rev (chars (level_name p'))) by (rewrite <- D'; apply last_name).
  rewrite E in E'. destruct p, p'; solve [reflexivity|discriminate].
Qed.
Print Assumptions C265_level_readable.
Example C265_case2 : level Debug (mkAns 0 0 1 99 None (-20)) = Gave CriticalP /\ level Debug (mkAns 3 0 1 99 None (-20)) = Gave UnknownP.
Proof. split; reflexivity. Qed.

(** After a level was set, with the privilege to do so, the last line of the report names it. *)
Theorem C265_after_set_partial : forall b debug rr_min rr_max s p, 10 <= rr_max - rr_min -> rr_min <> -1 -> rr_max <> -1 ->
  (rt_index p <> None \/ (In p [CriticalP; HighP; NormalP; LowP] /\ sc_rr s = None)) ->
  exists s' lines, set_priority debug true rr_min rr_max s p = Ok (true, s') /\
    diagnostics b (answers_of rr_min rr_max s') = Gave (of_lines lines) /\
    last lines [] = chars "Priority..................................." ++ chars (level_name p) /\
    In (chars "Scheduler.................................." ++ chars (if rt_index p then "SCHED_RR [RT]" else "SCHED_OTHER")) lines.
Proof.
  intros b debug lo hi s p R N1 N2 K.
  assert (Q : exists s', set_priority debug true lo hi s p = Ok (true, s') /\ get_priority lo hi s' = p /\ (rt_index p <> None <-> sc_rr s' <> None)).
  { destruct K as [K|[K E]].
    - destruct (rt_index p) as [i|] eqn:I; [|contradiction]. destruct (C39_real_time_round_trip debug lo hi s p i R I) as (s' & A & B & v & V & _).
      exists s'. split; [exact A|]. split; [exact B|]. rewrite V. split; discriminate.
    - destruct s as [rr n]. cbn in E. subst rr. destruct (C104_nice_levels_round_trip debug lo hi n p K) as (s' & A & B). exists s'. split; [exact A|]. split; [exact B|].
      revert A. cbn in K. destruct K as [<-|[<-|[<-|[<-|[]]]]]; unfold set_priority; cbn [rt_index nice_request]; unfold os_setpriority; rewrite andb_false_r; intros A; injection A as <-; cbn; split; intros X; contradiction. }
  destruct Q as (s' & A & B & C). assert (L : level b (answers_of lo hi s') = Gave p).
  { unfold level, answers_of. cbn [an_sched an_param an_min an_max an_nice an_errno]. destruct s' as [[v|] n]; cbn [sc_rr sc_nice Z.eqb].
    - change (Pos.eqb 2 2) with true. cbn iota. rewrite (proj2 (Z.eqb_neq _ _) N1), (proj2 (Z.eqb_neq _ _) N2). cbn [orb]. now rewrite B.
    - f_equal. exact B. }
  exists s'. eexists. split; [exact A|].
  assert (NS : an_sched (answers_of lo hi s') <> -1) by (unfold answers_of; cbn; destruct (sc_rr s'); discriminate).
  split; [exact (diag_text b (answers_of lo hi s') p N1 N2 NS L)|].
  split; [reflexivity|]. unfold report. do 12 right. left. f_equal. f_equal.
  unfold answers_of. cbn [an_sched]. destruct (sc_rr s'), (rt_index p); try reflexivity; exfalso; destruct C as [C1 C2].
  - apply C2; [discriminate|reflexivity].
  - apply C1; [discriminate|reflexivity].
Qed.
Print Assumptions C265_after_set_partial.
Example C265_case3 : 10 <= 99 - 1 /\ rt_index RT3 <> None /\ In HighP [CriticalP; HighP; NormalP; LowP].
Proof. cbn. split; [lia|]. split; [discriminate|]. right. now left. Qed.
(** The background level is reported as normal: the report promises a niceness of 20, the system stops at 19. *)
Theorem C265_background_refuted : forall b debug rr_min rr_max n, rr_min <> -1 -> rr_max <> -1 -> exists s' lines,
  set_priority debug true rr_min rr_max (MkSched None n) BackgroundP = Ok (true, s') /\ sc_nice s' = 19 /\
  diagnostics b (answers_of rr_min rr_max s') = Gave (of_lines lines) /\ last lines [] = chars "Priority...................................Normal" /\
  In (chars "Niceness [Low,High]........................[20,-20]") lines.
Proof.
  intros b debug lo hi n N1 N2. exists (MkSched None 19). eexists. split; [unfold set_priority; cbn [rt_index nice_request]; unfold os_setpriority; rewrite andb_false_r; reflexivity|]. split; [reflexivity|].
  split; [exact (diag_text b (answers_of lo hi (MkSched None 19)) NormalP N1 N2 ltac:(discriminate) eq_refl)|]. split; [reflexivity|]. unfold report. do 6 right. now left.
Qed.
Print Assumptions C265_background_refuted.

(** Failures: without round robin the function throws unless exceptions are disabled; a failing sched_getscheduler throws in debug
    builds only. In the other builds a sentence says so. get_priority then answers Unknown. Other policies are Unknown. *)
Theorem C265_failures : forall b a,
  ((an_min a = -1 \/ an_max a = -1) -> diagnostics b a =
    match b with NoExceptions => Gave (chars "The posix SCHED_RR policy is not available on this system [sched_get_priority_min/max].") | _ => Threw CNotSupported end) /\
  (an_min a <> -1 -> an_max a <> -1 -> an_sched a = -1 -> diagnostics b a =
    match b with Debug => Threw (if an_errno a =? 22 then CInvalidInput else if an_errno a =? 3 then CInvalidInput else if an_errno a =? 1 then CPermissions else if an_errno a =? 13 then CPermissions else CUnknown)
               | _ => Gave (chars "Call to sched_getscheduler failed.") end) /\
  (an_sched a = -1 -> b <> Debug -> level b a = Gave UnknownP) /\
  (an_sched a = 2 -> an_param a = None -> b <> Debug -> level b a = Gave UnknownP) /\
  (an_sched a <> -1 -> an_sched a <> 0 -> an_sched a <> 2 -> level b a = Gave UnknownP) /\
  (forall v, an_sched a = 2 -> an_param a = Some v -> (an_min a = -1 \/ an_max a = -1) ->
    level b a = match b with NoExceptions => Gave UnknownP | _ => Threw CNotSupported end).
Proof.
  intros b a. unfold diagnostics, level. repeat split.
  - intros [->|E]; [destruct b; reflexivity|]. rewrite E, orb_true_r. destruct b; reflexivity.
  - intros H1 H2 H3. rewrite (proj2 (Z.eqb_neq _ _) H1), (proj2 (Z.eqb_neq _ _) H2), H3. destruct b; reflexivity.
  - intros -> B. destruct b; [reflexivity..|contradiction].
  - intros -> -> B. destruct b; [reflexivity..|contradiction].
  - intros H1 H2 H3. now rewrite (proj2 (Z.eqb_neq _ _) H1), (proj2 (Z.eqb_neq _ _) H2), (proj2 (Z.eqb_neq _ _) H3).
  - intros v -> -> [->|E]; [destruct b; reflexivity|]. rewrite E, orb_true_r. destruct b; reflexivity.
Qed.
Print Assumptions C265_failures.
Example C265_case4 : diagnostics Release (mkAns 0 0 1 (-1) None 0) = Threw CNotSupported /\ diagnostics Debug (mkAns (-1) 1 1 99 None 0) = Threw CPermissions.
Proof. split; reflexivity. Qed.
