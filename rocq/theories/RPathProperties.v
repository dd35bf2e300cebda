(** C213: resolving paths. *)
From Coq Require Import ZArith List Lia.
Import ListNotations.
From Verif Require Import Base RPathModel.
Open Scope Z_scope.

(** What the documentation (filesystem/realpath.hpp) promises: the error flag for each reason of failure. *)
Definition documented : list (Z * flag) :=
  [(13, PermissionsError); (22, InvalidArgError); (5, ReadError); (40, InvalidObjectError); (36, InvalidArgError); (2, NotFoundError); (20, InvalidObjectError)].
Definition resolves (lib : list Z -> answer) (p q : list Z) : Prop := lib p = Resolved q.
(** As long as paths resolve, each result is the resolved path and nothing is lost. *)
Theorem C213_success : forall lib pq lost, Forall (fun x => resolves lib (fst x) (snd x)) pq ->
  realpaths lib (map fst pq) lost = Ok (map (fun x => (NoError, snd x)) pq, lost).
Proof.
  intros lib pq lost F. induction F as [|[p q] tl K F IH]; [reflexivity|]. unfold resolves in K. cbn [fst snd] in K. cbn [map realpaths fst]. unfold realpath. rewrite K. cbn [bind]. rewrite IH. reflexivity.
Qed.
Print Assumptions C213_success.
(** A failure never looks like success and names the documented reason, if the library left a text in the buffer.
    Full statement: whatever is in the buffer, without losing it and without touching the result: refuted below. *)
Theorem C213_failure_partial : forall lib p a lost e t, lib p = Failed e (Some t) -> exists f a' lost', realpath lib p a lost = Ok (f, a', lost') /\
  f <> NoError /\ (forall g, In (e, g) documented -> f = g) /\ ((forall g, ~ In (e, g) documented) -> f = UnknownError).
Proof.
  intros lib p a lost e t K. unfold realpath. rewrite K. eexists _, _, _. split; [reflexivity|].
  unfold flag_of, EACCES, EINVAL, EIO, ELOOP, ENAMETOOLONG, ENOENT, ENOTDIR, documented.
  repeat match goal with |- context [e =? ?c] => destruct (Z.eqb_spec e c) as [->|]; [split; [discriminate|split; [intros g G; cbn in G; intuition congruence|intros N; exfalso; eapply N; cbn; eauto 10]]|] end.
  split; [discriminate|split; [intros g G; cbn in G; intuition congruence|reflexivity]].
Qed.
Print Assumptions C213_failure_partial.
Example C213_case : exists lib : list Z -> answer, resolves lib [47] [47] /\ realpath lib [120] [1] 0 = Ok (NotFoundError, [47; 120], 1).
Proof. exists (fun p => match p with [47] => Resolved [47] | _ => Failed 2 (Some [47; 120]) end). split; reflexivity. Qed.

(** On failure the buffer is read even if nothing was written to it. *)
Theorem C213_unwritten_buffer_refuted : exists lib p a, realpath lib p a 0 = UB.
Proof. exists (fun _ => Failed 22 None), [], []. reflexivity. Qed.
Print Assumptions C213_unwritten_buffer_refuted.
(** On failure the result string is overwritten and the buffer is lost, every time. *)
Theorem C213_failure_loses_refuted : exists lib, forall n lost, exists l, realpaths lib (repeat [120] n) lost = Ok (l, lost + Z.of_nat n) /\ length l = n /\ Forall (fun x => x = (NotFoundError, [47; 120])) l.
Proof.
  exists (fun _ => Failed 2 (Some [47; 120])). induction n as [|n IH]; intros lost; [exists []; cbn; repeat split; [do 2 f_equal; lia|constructor]|].
  cbn [repeat realpaths]. unfold realpath. cbn [bind]. destruct (IH (lost + 1)) as (l & E & L & F). unfold realpath in E. rewrite E. cbn [bind].
  exists ((NotFoundError, [47; 120]) :: l). split; [do 2 f_equal; lia|]. split; [cbn; lia|]. constructor; [reflexivity|exact F].
Qed.
Print Assumptions C213_failure_loses_refuted.
