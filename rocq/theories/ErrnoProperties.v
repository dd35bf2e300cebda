(** How failures of system calls are classified. *)
From Coq Require Import ZArith Lia List Bool.
Import ListNotations.
From Verif Require Import ErrnoModel.
Open Scope Z_scope.

(** * C180: the same failure gets the same classification in builds with and without exceptions *)
Theorem C180_same_partial : forall e,
  write_error e = write_exception e /\ read_error e = read_exception e /\ sync_error e = sync_exception e /\
  close_error e = close_exception e /\ socket_error e = socket_exception e /\ bind_error e = bind_exception e /\
  accept_error e = accept_exception e /\ receive_error e = receive_exception e /\ send_error e = send_exception e /\
  ioctl_error e = ioctl_exception e /\
  (open_error e = open_exception e <-> e <> 2) /\
  (gethostbyname_error e = gethostbyname_exception e <-> e <> 1 /\ e <> 2) /\
  (connection_error e = connection_exception e <-> e <> 101 /\ e <> 113).
Proof.
  intros e. do 10 (split; [reflexivity|]).
  assert (A : forall f g : Z -> flag, forall bad : list Z, (forall x, In x bad -> f x <> g x) -> (~ In e bad -> f e = g e) -> (f e = g e <-> ~ In e bad)).
  { intros f g bad H1 H2. split; [intros E I; exact (H1 e I E) | exact H2]. }
  split; [|split].
  - rewrite (A open_error open_exception [2]).
    + cbn; intuition lia.
    + intros x [<- | []]. discriminate.
    + intros N. assert (e <> 2) by (intros ->; apply N; cbn; auto). unfold open_error, open_exception. cbn [switch].
      unfold ENOENT. destruct (Z.eqb_spec e 2); [congruence | reflexivity].
  - rewrite (A gethostbyname_error gethostbyname_exception [1; 2]).
    + cbn; intuition lia.
    + intros x [<- | [<- | []]]; discriminate.
    + intros N. assert (e <> 1 /\ e <> 2) by (split; intros ->; apply N; cbn; auto). destruct H as [H1 H2].
      unfold gethostbyname_error, gethostbyname_exception. cbn [switch]. unfold HOST_NOT_FOUND, TRY_AGAIN.
      destruct (Z.eqb_spec e 1); [congruence|]. destruct (Z.eqb_spec e 2); [congruence | reflexivity].
  - rewrite (A connection_error connection_exception [101; 113]).
    + cbn; intuition lia.
    + intros x [<- | [<- | []]]; discriminate.
    + intros N. assert (e <> 101 /\ e <> 113) by (split; intros ->; apply N; cbn; auto). destruct H as [H1 H2].
      unfold connection_error, connection_exception. cbn [switch]. unfold ENETUNREACH, EHOSTUNREACH.
      destruct (Z.eqb_spec e 101); [congruence|]. destruct (Z.eqb_spec e 113); [congruence | reflexivity].
Qed.
Print Assumptions C180_same_partial.
(** A missing file is NotFoundError when thrown and UnknownError when returned; likewise an unknown host, a busy name
    server and an unreachable network. *)
Theorem C180_differ_refuted :
  open_exception 2 = NotFoundError /\ open_error 2 = UnknownError /\
  gethostbyname_exception 1 = OpenError /\ gethostbyname_error 1 = ConnectionError /\
  gethostbyname_exception 2 = OpenError /\ gethostbyname_error 2 = UnknownError /\
  connection_exception 101 = NotFoundError /\ connection_error 101 = ConfigurationError /\
  connection_exception 113 = NotFoundError /\ connection_error 113 = UnknownError.
Proof. repeat split. Qed.
Print Assumptions C180_differ_refuted.
Example C180_case : connection_error 111 = ConnectionRefusedError /\ open_error 13 = PermissionsError /\ bind_error 98 = BusyError.
Proof. repeat split. Qed.

(** * C181: blocking, interruption and refusal are recognised *)
(** A call that would block (errno 11), was interrupted (4) or was not permitted (1, 13). *)
Theorem C181_recognised_partial :
  read_error 11 = BlockingError /\ write_error 11 = BlockingError /\ accept_error 11 = BlockingError /\ send_error 11 = BlockingError /\
  open_error 4 = InterruptedError /\ read_error 4 = InterruptedError /\ write_error 4 = InterruptedError /\ close_error 4 = InterruptedError /\
  accept_error 4 = InterruptedError /\ receive_error 4 = InterruptedError /\ send_error 4 = InterruptedError /\ connection_error 4 = InterruptedError /\
  open_error 13 = PermissionsError /\ bind_error 13 = PermissionsError /\ send_error 13 = PermissionsError /\
  accept_error 1 = PermissionsError /\ connection_error 1 = PermissionsError /\
  (forall e, receive_error e = InterruptedError <-> e = 1 \/ e = 4) /\ (forall e, send_error e = BlockingError <-> e = 1 \/ e = 11) /\
  (forall e, connection_error e = PermissionsError <-> e = 1).
Proof.
  repeat match goal with |- _ /\ _ => split end; try reflexivity.
  - intros e. split; [|intros [-> | ->]; reflexivity]. unfold receive_error. cbn [switch]. change (c_or EAGAIN EWOULDBLOCK) with 1.
    unfold EINTR. repeat match goal with |- context [e =? ?k] => destruct (Z.eqb_spec e k) end; first [discriminate | auto].
  - intros e. split; [|intros [-> | ->]; reflexivity]. unfold send_error. cbn [switch]. change (c_or EAGAIN EWOULDBLOCK) with 1.
    unfold EWOULDBLOCK. repeat match goal with |- context [e =? ?k] => destruct (Z.eqb_spec e k) end; first [discriminate | auto].
  - intros e. split; [|intros ->; reflexivity]. unfold connection_error. cbn [switch]. change (c_or EACCES EPERM) with 1.
    repeat match goal with |- context [e =? ?k] => destruct (Z.eqb_spec e k) end; first [discriminate | auto].
Qed.
Print Assumptions C181_recognised_partial.
(** The failures each call recognises, by their numbers on Linux; every other one is an unknown error. *)
Theorem C181_known :
  (forall e, open_error e <> UnknownError <-> In e [4; 12; 13; 20; 21; 22; 23; 24; 26; 27; 28; 30; 36; 40; 75]) /\
  (forall e, write_error e <> UnknownError <-> In e [4; 5; 9; 11; 14; 22; 27; 28; 32]) /\
  (forall e, read_error e <> UnknownError <-> In e [4; 5; 9; 11; 14; 21; 22]) /\
  (forall e, sync_error e <> UnknownError <-> In e [5; 9; 22; 30]) /\
  (forall e, close_error e <> UnknownError <-> In e [4; 5; 9]) /\
  (forall e, socket_error e <> UnknownError <-> In e [12; 13; 22; 23; 24; 93; 97; 105]) /\
  (forall e, bind_error e <> UnknownError <-> In e [2; 9; 12; 13; 14; 20; 22; 30; 36; 40; 88; 98; 99]) /\
  (forall e, accept_error e <> UnknownError <-> In e [1; 4; 9; 11; 12; 14; 22; 23; 24; 71; 88; 95; 103; 105]) /\
  (forall e, receive_error e <> UnknownError <-> In e [1; 4; 9; 12; 14; 22; 88; 107; 111]) /\
  (forall e, ioctl_error e <> UnknownError <-> In e [9; 14; 22; 25]) /\
  (forall e, send_error e <> UnknownError <-> In e [1; 4; 9; 11; 12; 13; 14; 22; 32; 88; 90; 95; 104; 105; 106; 107]) /\
  (forall e, gethostbyname_error e <> UnknownError <-> In e [1; 4]) /\
  (forall e, gethostbyname_exception e <> UnknownError <-> In e [1; 2; 4]) /\
  (forall e, open_exception e <> UnknownError <-> In e [2; 4; 12; 13; 20; 21; 22; 23; 24; 26; 27; 28; 30; 36; 40; 75]) /\
  (forall e, connection_error e <> UnknownError <-> In e [1; 4; 9; 11; 14; 88; 97; 98; 101; 106; 110; 111; 114; 115]) /\
  (forall e, connection_exception e <> UnknownError <-> In e [1; 4; 9; 11; 14; 88; 97; 98; 101; 106; 110; 111; 113; 114; 115]).
Proof.
  assert (G : forall cs e, switch cs e <> UnknownError -> In e (map fst cs)).
  { induction cs as [|[k f] cs IH]; intros e H; cbn in *; [congruence|]. destruct (Z.eqb_spec e k); [left; congruence|right; apply IH, H]. }
  assert (F : forall f cs l, f = switch cs -> (forall e, In e (map fst cs) -> In e l \/ switch cs e = UnknownError) -> Forall (fun e => switch cs e <> UnknownError) l ->
    forall e, f e <> UnknownError <-> In e l).
  { intros f cs l -> H1 H2 e. split; intros H.
    - destruct (H1 e (G _ _ H)) as [X|X]; [exact X|contradiction].
    - rewrite Forall_forall in H2. apply H2, H. }
  repeat match goal with |- _ /\ _ => split end; (eapply F; [reflexivity| |repeat constructor; discriminate]);
  intros e He; cbn in He; repeat (destruct He as [<- | He]; [first [left; cbn; repeat (first [left; reflexivity | right]); fail | right; reflexivity]|]); contradiction.
Qed.
Print Assumptions C181_known.
(** A read that timed out is an unknown error and a forbidden one is called an interruption; a write that is forbidden
    is said to block; a connection refused by permission is unknown. *)
Theorem C181_mislabelled_refuted :
  receive_error 11 = UnknownError /\ receive_exception 11 = UnknownError /\ receive_error 1 = InterruptedError /\
  send_error 1 = BlockingError /\ connection_error 13 = UnknownError /\ connection_exception 13 = UnknownError.
Proof. repeat split. Qed.
Print Assumptions C181_mislabelled_refuted.
