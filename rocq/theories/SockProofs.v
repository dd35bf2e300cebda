(** Invariants of the descriptor-holding devices. *)
From Verif Require Import Base SockModel.
From Coq Require Import Permutation.
Open Scope Z_scope.

(** * Descriptor table *)
Lemma used_In t fd : used t fd = true <-> In fd (map fst t).
Proof.
  unfold used. rewrite existsb_exists, in_map_iff. split.
  - intros ([a x] & Hi & E). exists (a, x). split; [cbn in *; lia | exact Hi].
  - intros ([a x] & E & Hi). exists (a, x). split; [exact Hi | cbn in *; lia].
Qed.
Lemma used_owner t fd : used t fd = true <-> exists id, owner t fd = Some id.
Proof.
  unfold used, owner. induction t as [|[a x] t IH]; cbn; [split; [discriminate | intros [? [=]]]|].
  destruct (a =? fd); cbn; [|exact IH]. split; [exists x; reflexivity | reflexivity].
Qed.
Lemma owner_In t fd id : owner t fd = Some id -> In (fd, id) t.
Proof.
  unfold owner. destruct (find _ t) as [[a x]|] eqn:E; [|discriminate]. intros [= ->].
  apply find_some in E. destruct E as [Hi E]. cbn in E. assert (a = fd) by lia. subst. exact Hi.
Qed.
Lemma lowest_free t : used t (lowest t) = false /\ 0 <= lowest t.
Proof.
  unfold lowest. destruct (find _ _) as [k|] eqn:E.
  - apply find_some in E. destruct E as [Hi E]. apply in_map_iff in Hi. destruct Hi as (n & <- & _).
    split; [now apply negb_true_iff in E | lia].
  - exfalso. pose proof (find_none _ _ E) as N.
    assert (I : incl (map Z.of_nat (seq 0 (S (length t)))) (map fst t)).
    { intros k Hk. specialize (N k Hk). apply negb_false_iff in N. now apply used_In. }
    apply NoDup_incl_length in I.
    + rewrite !map_length, seq_length in I. lia.
    + apply FinFun.Injective_map_NoDup; [intros a b; lia | apply seq_NoDup].
Qed.
Lemma owner_sys_open id p fd o : owner (tab p) fd = Some o -> owner (tab (snd (sys_open id p))) fd = Some o.
Proof.
  intros H. cbn. unfold owner. cbn. destruct (lowest (tab p) =? fd) eqn:E; [|exact H].
  assert (fd = lowest (tab p)) by lia. subst.
  assert (used (tab p) (lowest (tab p)) = true) by (apply used_owner; eauto).
  rewrite (proj1 (lowest_free (tab p))) in *. discriminate.
Qed.
Lemma owner_fresh id p : owner (tab (snd (sys_open id p))) (fst (sys_open id p)) = Some id.
Proof. cbn. unfold owner. cbn. now rewrite Z.eqb_refl. Qed.
Lemma owner_sys_close id fd p fd' : fd' <> fd -> owner (tab (sys_close id fd p)) fd' = owner (tab p) fd'.
Proof.
  intros N. cbn. unfold owner. induction (tab p) as [|[a x] t IH]; cbn; [reflexivity|].
  destruct (a =? fd) eqn:E; cbn.
  - destruct (a =? fd') eqn:F; [lia | exact IH].
  - destruct (a =? fd'); [reflexivity | exact IH].
Qed.

(** * Objects *)
Lemma get_put id o p i : get (put id o p) i = if i =? id then Some o else get p i.
Proof.
  unfold get, put, without. cbn. rewrite Z.eqb_sym. destruct (i =? id) eqn:E; [reflexivity|].
  induction (objs p) as [|[a x] l IH]; cbn; [reflexivity|].
  destruct (a =? id) eqn:A; cbn; [|destruct (a =? i); [reflexivity | exact IH]].
  destruct (a =? i) eqn:I; [lia | exact IH].
Qed.
Lemma get_gone id p i : get (gone id p) i = if i =? id then None else get p i.
Proof.
  unfold get, gone, without. cbn. destruct (i =? id) eqn:E.
  - assert (i = id) by lia. subst. induction (objs p) as [|[a x] l IH]; cbn; [reflexivity|].
    destruct (a =? id) eqn:A; cbn; [exact IH | rewrite A; exact IH].
  - induction (objs p) as [|[a x] l IH]; cbn; [reflexivity|].
    destruct (a =? id) eqn:A; cbn; [|destruct (a =? i); [reflexivity | exact IH]].
    destruct (a =? i) eqn:I; [lia | exact IH].
Qed.

(** The descriptor an object still holds. *)
Definition holds (o : obj) : option Z :=
  match o with
  | Client c => if c_open c then c_fd c else None
  | Server s => if s_open s then s_fd s else None
  | Port s => match p_open s with Some true => p_fd s | _ => None end
  | File f => match f_file f with Some (fd, true) => Some fd | _ => None end
  end.

(** * Invariant: what the objects hold is theirs *)
Definition theirs (p : proc) : Prop := forall id o fd, get p id = Some o -> holds o = Some fd -> owner (tab p) fd = Some id.
Definition own_closes (p : proc) : Prop := forall id w, In (id, w) (closes p) -> w = Some id.
Definition good (p : proc) : Prop := theirs p /\ own_closes p.

(** Everything but object [id] is in order. *)
Definition good_but (id : Z) (p : proc) : Prop :=
  (forall i o fd, i <> id -> get p i = Some o -> holds o = Some fd -> owner (tab p) fd = Some i) /\ own_closes p.
Lemma good_good_but id p : good p -> good_but id p.
Proof. intros [T C]. split; [intros i o fd _; apply T | exact C]. Qed.
Lemma good_but_put id o p : good_but id p -> (forall fd, holds o = Some fd -> owner (tab p) fd = Some id) -> good (put id o p).
Proof.
  intros [T C] H. split; [|exact C]. intros i x fd. rewrite get_put. destruct (i =? id) eqn:E.
  - assert (i = id) by lia. subst. intros [= <-] F. apply (H fd F).
  - intros G F. apply (T i x fd); [lia | exact G | exact F].
Qed.
Lemma good_but_gone id p : good_but id p -> good (gone id p).
Proof.
  intros [T C]. split; [|exact C]. intros i x fd. rewrite get_gone. destruct (i =? id) eqn:E; [discriminate|].
  intros G F. apply (T i x fd); [lia | exact G | exact F].
Qed.
Lemma good_but_close id fd p : good_but id p -> owner (tab p) fd = Some id -> good_but id (sys_close id fd p).
Proof.
  intros [T C] O. split.
  - intros i o f N G F. rewrite owner_sys_close; [apply (T i o f N G F)|].
    intros ->. rewrite (T i o fd N G F) in O. congruence.
  - intros i w Hi. cbn in Hi. apply in_app_or in Hi. destruct Hi as [Hi | [Hi | []]]; [apply (C i w Hi)|].
    injection Hi as <- <-. exact O.
Qed.
Lemma good_but_open id p : good_but id p -> good_but id (snd (sys_open id p)).
Proof.
  intros [T C]. split; [|exact C]. intros i o f N G F. apply owner_sys_open. apply (T i o f N G F).
Qed.
Lemma good_but_created id p : good_but id p -> good_but id (created id p).
Proof. intros [T C]. split; [intros i o f; apply T | exact C]. Qed.
Lemma is_new_get id p : is_new id p = true -> (forall i o, get p i = Some o -> In i (ids p)) -> get p id = None.
Proof.
  unfold is_new. intros H K. destruct (get p id) as [o|] eqn:E; [|reflexivity].
  specialize (K id o E). apply andb_prop in H. destruct H as [_ H]. apply negb_true_iff in H.
  assert (existsb (Z.eqb id) (ids p) = true) by (apply existsb_exists; exists id; split; [exact K | lia]). congruence.
Qed.

(** ** Calls *)
(** A call starting with an object whose descriptor, if held, is its own leaves things in order. *)
Definition held (id : Z) (o : obj) (p : proc) : Prop := forall fd, holds o = Some fd -> owner (tab p) fd = Some id.

Lemma client_close_good id p c p' c' : good_but id p -> held id (Client c) p -> c_open c = true ->
  client_close id p c = Ok (p', c') -> good_but id p' /\ held id (Client c') p' /\ c_open c' = false.
Proof.
  unfold client_close, held. cbn. intros G H O. rewrite O in H. destruct (c_fd c) as [fd|]; [|discriminate].
  intros [= <- <-]. split; [apply good_but_close; auto | split; [discriminate | reflexivity]].
Qed.
Lemma held_fresh id p w : (forall fd, holds w = Some fd -> fd = fst (sys_open id p)) -> held id w (snd (sys_open id p)).
Proof. intros H fd F. rewrite (H fd F). apply owner_fresh. Qed.
Lemma client_open_good os id p c p' c' ok : good_but id p -> held id (Client c) p ->
  client_open os id p c = Ok (p', c', ok) -> good_but id p' /\ held id (Client c') p'.
Proof.
  unfold client_open. intros G H. remember (if c_open c then client_close id p c else Ok (p, c)) as m eqn:Em.
  destruct m as [[p1 c1]| |]; [|discriminate|discriminate].
  assert (K : good_but id p1 /\ c_open c1 = false).
  { destruct (c_open c) eqn:O.
    - symmetry in Em. destruct (client_close_good _ _ _ _ _ G H O Em) as (A & _ & B). auto.
    - injection Em as -> ->. auto. }
  destruct K as [G1 O1]. cbn [bind].
  destruct os; intros E; injection E as <- <- <-.
  - split; [exact G1 | intros fd; cbn; rewrite O1; discriminate].
  - split; [|intros fd; cbn; rewrite O1; discriminate].
    apply good_but_close; [apply (good_but_open id p1 G1) | apply (owner_fresh id p1)].
  - split; [|intros fd; cbn; discriminate].
    apply good_but_close; [apply (good_but_open id p1 G1) | apply (owner_fresh id p1)].
  - split; [apply (good_but_open id p1 G1) | apply (held_fresh id p1 (Client (mkClient (Some (lowest (tab p1))) true))); cbn; congruence].
Qed.
Lemma server_close_good id p s p' s' : good_but id p -> held id (Server s) p -> s_open s = true ->
  server_close id p s = Ok (p', s') -> good_but id p' /\ held id (Server s') p' /\ s_open s' = false.
Proof.
  unfold server_close, held. cbn. intros G H O. rewrite O in H. destruct (s_fd s) as [fd|]; [|discriminate].
  intros [= <- <-]. split; [apply good_but_close; auto | split; [discriminate | reflexivity]].
Qed.
Lemma server_open_good os id p s p' s' ok : good_but id p -> held id (Server s) p ->
  server_open os id p s = Ok (p', s', ok) -> good_but id p' /\ held id (Server s') p'.
Proof.
  unfold server_open. intros G H. remember (if s_open s then server_close id p s else Ok (p, s)) as m eqn:Em.
  destruct m as [[p1 s1]| |]; [|discriminate|discriminate].
  assert (K : good_but id p1 /\ s_open s1 = false).
  { destruct (s_open s) eqn:O.
    - symmetry in Em. destruct (server_close_good _ _ _ _ _ G H O Em) as (A & _ & B). auto.
    - injection Em as -> ->. auto. }
  destruct K as [G1 O1]. cbn [bind].
  destruct os; intros E; injection E as <- <- <-.
  - split; [exact G1 | intros fd; cbn; rewrite O1; discriminate].
  - split; [apply (good_but_open id p1 G1) |].
    apply (held_fresh id p1 (Server (mkServer (Some (lowest (tab p1))) (s_peer s1) true))); cbn; congruence.
  - split; [apply (good_but_open id p1 G1) |].
    apply (held_fresh id p1 (Server (mkServer (Some (lowest (tab p1))) (s_peer s1) true))); cbn; congruence.
Qed.
Lemma server_listen_good ok id p s p' s' r : good_but id p -> held id (Server s) p ->
  server_listen ok id p s = Ok (p', s', r) -> good_but id p' /\ held id (Server s') p'.
Proof.
  unfold server_listen. intros G H. destruct (s_fd s) as [lfd|] eqn:F; [|discriminate].
  destruct (ok && used (tab p) lfd); intros E; injection E as <- <- <-.
  - split; [apply (good_but_open id p G) |]. intros fd E. cbn in E. destruct (s_open s) eqn:O; [|discriminate].
    injection E as <-. apply (owner_sys_open id p). apply (H lfd). cbn. now rewrite O.
  - split; [exact G|]. intros fd E. cbn in E. apply (H fd). cbn. now rewrite F.
Qed.
Lemma port_close_good id p s p' s' : good_but id p -> held id (Port s) p ->
  port_close id p s = Ok (p', s') -> good_but id p' /\ held id (Port s') p' /\ p_open s' = Some false.
Proof.
  unfold port_close, held. cbn. intros G H. destruct (p_open s) as [[]|] eqn:O; [| |discriminate].
  - destruct (p_fd s) as [fd|]; [|discriminate]. intros [= <- <-].
    split; [apply good_but_close; auto | split; [discriminate | reflexivity]].
  - intros [= <- <-]. rewrite O. auto.
Qed.
Lemma port_query_good th id p s p' s' r : good_but id p -> held id (Port s) p ->
  port_query th id p s = Ok (p', s', r) -> good_but id p' /\ held id (Port s') p' /\ p_open s' = Some r.
Proof.
  unfold port_query. intros G H. destruct (p_open s) as [[]|] eqn:O; [| |discriminate].
  - destruct th; [intros [= <- <- <-]; auto|].
    destruct (port_close id p s) as [[p1 s1]| |] eqn:E; [|discriminate|discriminate]. cbn. intros [= <- <- <-].
    apply (port_close_good _ _ _ _ _ G H E).
  - intros [= <- <- <-]. auto.
Qed.
Lemma port_open_good b os th id p s p' s' ok : good_but id p -> held id (Port s) p ->
  port_open b os th id p s = Ok (p', s', ok) -> good_but id p' /\ held id (Port s') p'.
Proof.
  intros G H. unfold port_open. destruct os.
  { intros [= <- <- <-]. split; [exact G|]. destruct (throws b); [exact H | intros fd; cbn; discriminate]. }
  all: destruct (port_query th id p s) as [[[p1 s1] iso]| |] eqn:Q; [|discriminate|discriminate];
    destruct (port_query_good _ _ _ _ _ _ _ G H Q) as (G1 & H1 & O1); cbn [bind];
    destruct (if iso then port_close id p1 s1 else Ok (p1, s1)) as [[p2 s2]| |] eqn:C; [|discriminate|discriminate];
    cbn [bind];
    (assert (K : good_but id p2 /\ p_open s2 = Some false) by
      (destruct iso; [destruct (port_close_good _ _ _ _ _ G1 H1 C) as (A & _ & B); auto | injection C as <- <-; auto]));
    destruct K as [G2 O2].
  - intros [= <- <- <-]. split; [exact G2 | intros fd; cbn; discriminate].
  - intros E; injection E as <- <- <-. split; [apply (good_but_open id p2 G2) | intros fd; cbn; discriminate].
  - intros E; injection E as <- <- <-. split; [apply (good_but_open id p2 G2) | intros fd; cbn; discriminate].
  - intros E; injection E as <- <- <-. split; [apply (good_but_open id p2 G2) | intros fd; cbn; discriminate].
  - destruct (p_wait s2) as [w|] eqn:W; [|unfold sys_open; discriminate]. unfold sys_open at 1.
    intros E; injection E as <- <- <-. split; [apply (good_but_open id p2 G2)|].
    apply (held_fresh id p2 (Port (mkPort (Some (lowest (tab p2))) (Some true) (Some w)))); cbn; congruence.
Qed.
Lemma file_open_good os id p f p' f' ok : good_but id p -> held id (File f) p ->
  file_open os id p f = Ok (p', f', ok) -> good_but id p' /\ held id (File f') p'.
Proof.
  unfold file_open. intros G H. destruct os; intros E; injection E as <- <- <-.
  - auto.
  - split; [apply (good_but_open id p G) | intros fd; cbn; discriminate].
  - split; [apply (good_but_open id p G)|].
    apply (held_fresh id p (File (mkFile (Some (lowest (tab p), true))))); cbn; congruence.
Qed.
Lemma file_close_good ok id p f p' f' r : good_but id p -> held id (File f) p ->
  file_close ok id p f = Ok (p', f', r) -> good_but id p' /\ held id (File f') p'.
Proof.
  unfold file_close, held. cbn. intros G H. destruct (f_file f) as [[fd []]|] eqn:F; [|discriminate|].
  - intros [= <- <- <-]. split; [apply good_but_close; auto | destruct ok; cbn; discriminate].
  - intros [= <- <- <-]. rewrite F. auto.
Qed.

(** ** Histories *)
(** Every close() and destruction of a socket, and every hang-up found by a server's write, happens while the
    socket reports itself open. *)
Definition mindful (e : event) (p : proc) : Prop :=
  let sock_open id := match get p id with Some (Client c) => c_open c = true | Some (Server s) => s_open s = true | _ => True end in
  match e with
  | Close id _ => sock_open id
  | Destroy id => sock_open id
  | HangUp id true => match get p id with Some (Server s) => s_open s = true | _ => True end
  | _ => True
  end.
Fixpoint mindfully (b : build) (es : list event) (p : proc) : Prop :=
  match es with [] => True | e :: es' => mindful e p /\ forall p', step b e p = Ok p' -> mindfully b es' p' end.

Lemma good_held p id o : good p -> get p id = Some o -> held id o p.
Proof. intros [T _] G fd F. apply (T id o fd G F). Qed.
Lemma held_none id o p : holds o = None -> held id o p.
Proof. intros H fd F. congruence. Qed.
Lemma constructed_good {A} b (wrap : A -> obj) id m p' :
  (forall q o ok, m = Ok (q, o, ok) -> good_but id q /\ held id (wrap o) q /\ (forall i o', i = id -> get q i = Some o' -> False)) ->
  constructed b wrap id m = Ok p' -> good p'.
Proof.
  intros H. unfold constructed. destruct m as [[[q o] ok]| |]; [|discriminate|discriminate]. cbn.
  destruct (H q o ok eq_refl) as (G & Hd & N). intros [= <-]. destruct (ok || negb (throws b)).
  - apply good_but_put; assumption.
  - destruct G as [T C]. split; [|exact C]. intros i x fd Gi F. destruct (Z.eq_dec i id) as [E|E].
    + destruct (N i x E Gi).
    + apply (T i x fd E Gi F).
Qed.
Lemma updated_good {A} (wrap : A -> obj) id m p' :
  (forall q o ok, m = Ok (q, o, ok) -> good_but id q /\ held id (wrap o) q) -> updated wrap id m = Ok p' -> good p'.
Proof.
  intros H. unfold updated. destruct m as [[[q o] ok]| |]; [|discriminate|discriminate]. cbn.
  destruct (H q o ok eq_refl) as (G & Hd). intros [= <-]. apply good_but_put; assumption.
Qed.
Lemma updated2_good {A} (wrap : A -> obj) id m p' :
  (forall q o, m = Ok (q, o) -> good_but id q /\ held id (wrap o) q) -> updated2 wrap id m = Ok p' -> good p'.
Proof.
  intros H. unfold updated2. destruct m as [[q o]| |]; [|discriminate|discriminate]. cbn.
  destruct (H q o eq_refl) as (G & Hd). intros [= <-]. apply good_but_put; assumption.
Qed.
Lemma destroyed_good {A} id (m : res (proc * A)) p' :
  (forall q o, m = Ok (q, o) -> good_but id q) -> destroyed id m = Ok p' -> good p'.
Proof.
  intros H. unfold destroyed. destruct m as [[q o]| |]; [|discriminate|discriminate]. cbn.
  intros [= <-]. apply good_but_gone. apply (H q o eq_refl).
Qed.

(** Objects keep their identity: calls change neither the ids given out nor other objects. *)
Definition known (p : proc) : Prop := (forall i o, get p i = Some o -> In i (ids p)) /\ ~ In 0 (ids p).
Definition same_objs (p q : proc) : Prop := objs q = objs p /\ ids q = ids p.
Lemma same_objs_get p q i : same_objs p q -> get q i = get p i.
Proof. intros [E _]. unfold get. now rewrite E. Qed.
Ltac inv_res := repeat match goal with
  | H : Ok _ = Ok _ |- _ => injection H as; subst
  | H : UB = Ok _ |- _ => discriminate
  | H : Throw _ = Ok _ |- _ => discriminate
  | H : context [match ?m with _ => _ end] |- _ => destruct m eqn:?; cbn [bind fst snd] in H
  end.
Lemma same_refl p : same_objs p p. Proof. split; reflexivity. Qed.
Lemma same_client_close id p c p' c' : client_close id p c = Ok (p', c') -> same_objs p p'.
Proof. unfold client_close. destruct (c_fd c); [|discriminate]. intros [= <- <-]. split; reflexivity. Qed.
Lemma same_server_close id p c p' c' : server_close id p c = Ok (p', c') -> same_objs p p'.
Proof. unfold server_close. destruct (s_fd c); [|discriminate]. intros [= <- <-]. split; reflexivity. Qed.
Lemma same_port_close id p c p' c' : port_close id p c = Ok (p', c') -> same_objs p p'.
Proof.
  unfold port_close. destruct (p_open c) as [[]|]; [destruct (p_fd c); [|discriminate]| |discriminate];
  intros [= <- <-]; split; reflexivity.
Qed.
Lemma same_port_query th id p c p' c' r : port_query th id p c = Ok (p', c', r) -> same_objs p p'.
Proof.
  unfold port_query. destruct (p_open c) as [[]|]; [destruct th| |discriminate]; try (intros [= <- <- <-]; apply same_refl).
  destruct (port_close id p c) as [[q s]| |] eqn:E; [|discriminate|discriminate]. cbn. intros [= <- <- <-].
  apply (same_port_close _ _ _ _ _ E).
Qed.
Lemma same_trans p q r : same_objs p q -> same_objs q r -> same_objs p r.
Proof. intros [A B] [C D]. split; congruence. Qed.
Lemma same_client_open os id p c p' c' r : client_open os id p c = Ok (p', c', r) -> same_objs p p'.
Proof.
  unfold client_open. destruct (if c_open c then _ else _) as [[p1 c1]| |] eqn:E; [|discriminate|discriminate].
  assert (S1 : same_objs p p1) by (destruct (c_open c); [apply (same_client_close _ _ _ _ _ E) | injection E as <- <-; apply same_refl]).
  destruct S1 as [A B]. destruct os; cbn; intros H; injection H as <- <- <-; split; cbn; assumption.
Qed.
Lemma same_server_open os id p c p' c' r : server_open os id p c = Ok (p', c', r) -> same_objs p p'.
Proof.
  unfold server_open. destruct (if s_open c then _ else _) as [[p1 c1]| |] eqn:E; [|discriminate|discriminate].
  assert (S1 : same_objs p p1) by (destruct (s_open c); [apply (same_server_close _ _ _ _ _ E) | injection E as <- <-; apply same_refl]).
  destruct S1 as [A B]. destruct os; cbn; intros H; injection H as <- <- <-; split; cbn; assumption.
Qed.
Lemma same_port_open b os th id p c p' c' r : port_open b os th id p c = Ok (p', c', r) -> same_objs p p'.
Proof.
  unfold port_open. destruct os; [intros [= <- <- <-]; apply same_refl| | | | |];
  (destruct (port_query th id p c) as [[[p1 s1] iso]| |] eqn:Q; [|discriminate|discriminate]; cbn [bind];
   destruct (if iso then _ else _) as [[p2 s2]| |] eqn:C; [|discriminate|discriminate]; cbn [bind];
   assert (S2 : same_objs p p2) by
     (apply (same_trans p p1 p2); [apply (same_port_query _ _ _ _ _ _ _ Q) |
       destruct iso; [apply (same_port_close _ _ _ _ _ C) | injection C as <- <-; apply same_refl]]);
   destruct S2 as [A B]).
  - intros [= <- <- <-]. split; assumption.
  - cbn. intros H; injection H as <- <- <-; split; cbn; assumption.
  - cbn. intros H; injection H as <- <- <-; split; cbn; assumption.
  - cbn. intros H; injection H as <- <- <-; split; cbn; assumption.
  - unfold sys_open. destruct (p_wait s2); [|discriminate]. intros H; injection H as <- <- <-; split; cbn; assumption.
Qed.
Lemma same_file_open os id p c p' c' r : file_open os id p c = Ok (p', c', r) -> same_objs p p'.
Proof. unfold file_open. destruct os; cbn; intros H; injection H as <- <- <-; split; reflexivity. Qed.
Lemma same_file_close ok id p c p' c' r : file_close ok id p c = Ok (p', c', r) -> same_objs p p'.
Proof.
  unfold file_close. destruct (f_file c) as [[fd []]|]; [|discriminate|]; cbn; intros H; injection H as <- <- <-; split; reflexivity.
Qed.
Lemma same_listen ok id p c p' c' r : server_listen ok id p c = Ok (p', c', r) -> same_objs p p'.
Proof.
  unfold server_listen. destruct (s_fd c); [|discriminate]. destruct (ok && _); cbn; intros H; injection H as <- <- <-; split; reflexivity.
Qed.
Lemma same_client_hangup id p c p' c' : client_hangup id p c = Ok (p', c') -> same_objs p p'.
Proof. unfold client_hangup. destruct (c_open c); [apply same_client_close | intros [= <- <-]; apply same_refl]. Qed.
Lemma same_server_hangup w id p c p' c' : server_hangup w id p c = Ok (p', c') -> same_objs p p'.
Proof.
  unfold server_hangup. destruct (negb w && _); [intros [= <- <-]; apply same_refl|].
  destruct (s_peer c); [apply same_server_close | discriminate].
Qed.

Lemma known_put p q id o : known p -> same_objs p q -> In id (ids p) -> known (put id o q).
Proof.
  intros [K Z0] [A B] I. split; [|cbn; rewrite B; exact Z0]. intros i x. rewrite get_put. cbn. rewrite B. destruct (i =? id) eqn:E.
  - intros _. assert (i = id) by lia. subst. exact I.
  - unfold get. rewrite A. apply K.
Qed.
Lemma known_gone p q id : known p -> same_objs p q -> known (gone id q).
Proof.
  intros [K Z0] [A B]. split; [|cbn; rewrite B; exact Z0]. intros i x. rewrite get_gone. cbn. rewrite B. destruct (i =? id); [discriminate|]. unfold get. rewrite A. apply K.
Qed.
Lemma known_same p q : known p -> same_objs p q -> known q.
Proof. intros [K Z0] [A B]. split; [|rewrite B; exact Z0]. intros i x. unfold get. rewrite A, B. apply K. Qed.
Lemma known_created p id : is_new id p = true -> known p -> known (created id p).
Proof.
  intros N [K Z0]. split; [intros i x G; right; apply (K i x G)|]. intros [E | E]; [|exact (Z0 E)].
  subst. unfold is_new in N. discriminate.
Qed.
Lemma constructed_known {A} b (wrap : A -> obj) id m p p' : known p -> In id (ids p) ->
  (forall q o ok, m = Ok (q, o, ok) -> same_objs p q) -> constructed b wrap id m = Ok p' -> known p'.
Proof.
  intros K I H. unfold constructed. destruct m as [[[q o] ok]| |]; [|discriminate|discriminate]. cbn.
  pose proof (H q o ok eq_refl) as S1. intros [= <-]. destruct (ok || _); [apply (known_put p); assumption | apply (known_same p); assumption].
Qed.
Lemma updated_known {A} (wrap : A -> obj) id m p p' : known p -> In id (ids p) ->
  (forall q o ok, m = Ok (q, o, ok) -> same_objs p q) -> updated wrap id m = Ok p' -> known p'.
Proof.
  intros K I H. unfold updated. destruct m as [[[q o] ok]| |]; [|discriminate|discriminate]. cbn.
  pose proof (H q o ok eq_refl) as S1. intros [= <-]. apply (known_put p); assumption.
Qed.
Lemma updated2_known {A} (wrap : A -> obj) id m p p' : known p -> In id (ids p) ->
  (forall q o, m = Ok (q, o) -> same_objs p q) -> updated2 wrap id m = Ok p' -> known p'.
Proof.
  intros K I H. unfold updated2. destruct m as [[q o]| |]; [|discriminate|discriminate]. cbn.
  pose proof (H q o eq_refl) as S1. intros [= <-]. apply (known_put p); assumption.
Qed.
Lemma destroyed_known {A} id (m : res (proc * A)) p p' : known p ->
  (forall q o, m = Ok (q, o) -> same_objs p q) -> destroyed id m = Ok p' -> known p'.
Proof.
  intros K H. unfold destroyed. destruct m as [[q o]| |]; [|discriminate|discriminate]. cbn.
  pose proof (H q o eq_refl) as S1. intros [= <-]. apply (known_gone p); assumption.
Qed.
Lemma new_known p id o : is_new id p = true -> known p -> known (put id o (created id p)).
Proof. intros N K. apply (known_put (created id p)); [apply (known_created _ _ N K) | apply same_refl | left; reflexivity]. Qed.

Lemma step_known b e p p' : known p -> step b e p = Ok p' -> known p'.
Proof.
  intros K. destruct e; cbn [step];
  try (intros [= <-]; destruct (is_new id p) eqn:N; [apply (new_known _ _ _ N K) | exact K]);
  try (destruct (is_new id p) eqn:N; [|intros [= <-]; exact K];
       apply (constructed_known _ _ _ _ (created id p)); [apply (known_created _ _ N K) | left; reflexivity |];
       first [apply same_client_open | apply same_server_open | apply same_port_open | apply same_file_open]).
  1-6: destruct (get p id) as [[]|] eqn:G; try (intros [= <-]; exact K);
       apply (updated_known _ _ _ p); [exact K | apply (proj1 K _ _ G) |];
       first [apply same_client_open | apply same_server_open | apply same_port_open | apply same_file_open | apply same_listen | apply same_port_query].
  - destruct (get p id) as [[]|] eqn:G; try (intros [= <-]; exact K);
    apply (updated2_known _ _ _ p); try exact K; try apply (proj1 K _ _ G); [apply same_client_hangup | apply same_server_hangup].
  - destruct (get p id) as [[]|] eqn:G; try (intros [= <-]; exact K).
    + apply (updated2_known _ _ _ p); [exact K | apply (proj1 K _ _ G) | apply same_client_close].
    + apply (updated2_known _ _ _ p); [exact K | apply (proj1 K _ _ G) | apply same_server_close].
    + apply (updated2_known _ _ _ p); [exact K | apply (proj1 K _ _ G) | apply same_port_close].
    + apply (updated_known _ _ _ p); [exact K | apply (proj1 K _ _ G) | apply same_file_close].
  - destruct (get p id) as [[]|] eqn:G; try (intros [= <-]; exact K); apply (destroyed_known _ _ p); try exact K.
    + apply same_client_close.
    + apply same_server_close.
    + apply same_port_close.
    + intros q o. destruct (file_close true id p f) as [[[q1 o1] r]| |] eqn:E; [|discriminate|discriminate]. cbn. intros [= <- <-].
      apply (same_file_close _ _ _ _ _ _ _ E).
  - intros [= <-]. apply (known_same p); [exact K | split; reflexivity].
  - intros [= <-]. destruct (owner (tab p) fd) as [[]|]; exact K.
Qed.

Lemma good_new p id o : good p -> holds o = None -> good (put id o (created id p)).
Proof.
  intros G H. apply good_but_put; [apply good_but_created, good_good_but, G | apply (held_none id o p H)].
Qed.
Lemma step_good b e p p' : good p -> known p -> mindful e p -> step b e p = Ok p' -> good p'.
Proof.
  intros G K M. pose proof (fun id => good_good_but id p G) as GB.
  pose proof (fun id => good_but_created id p (GB id)) as GC.
  destruct e; cbn [step].
  1-4: intros [= <-]; destruct (is_new id p); [|exact G].
  1-4: apply good_new; [exact G | reflexivity].
  1-4: destruct (is_new id p) eqn:N; [|intros [= <-]; exact G]; apply constructed_good; intros q o ok E.
  - destruct (client_open_good _ _ _ _ _ _ _ (GC id) (held_none id (Client (fresh_client st)) (created id p) eq_refl) E) as [A B].
    split; [exact A | split; [exact B|]]. intros i o' -> X.
    rewrite (same_objs_get _ _ _ (same_client_open _ _ _ _ _ _ _ E)) in X. pose proof (is_new_get id p N (proj1 K)). unfold get in *. cbn in X. congruence.
  - destruct (server_open_good _ _ _ _ _ _ _ (GC id) (held_none id (Server (fresh_server st)) (created id p) eq_refl) E) as [A B].
    split; [exact A | split; [exact B|]]. intros i o' -> X.
    rewrite (same_objs_get _ _ _ (same_server_open _ _ _ _ _ _ _ E)) in X. pose proof (is_new_get id p N (proj1 K)). unfold get in *. cbn in X. congruence.
  - assert (Hn : holds (Port (opening_port st)) = None) by (destruct st; reflexivity).
    destruct (port_open_good _ _ _ _ _ _ _ _ _ (GC id) (held_none id (Port (opening_port st)) (created id p) Hn) E) as [A B].
    split; [exact A | split; [exact B|]]. intros i o' -> X.
    rewrite (same_objs_get _ _ _ (same_port_open _ _ _ _ _ _ _ _ _ E)) in X. pose proof (is_new_get id p N (proj1 K)). unfold get in *. cbn in X. congruence.
  - destruct (file_open_good _ _ _ _ _ _ _ (GC id) (held_none id (File fresh_file) (created id p) eq_refl) E) as [A B].
    split; [exact A | split; [exact B|]]. intros i o' -> X.
    rewrite (same_objs_get _ _ _ (same_file_open _ _ _ _ _ _ _ E)) in X. pose proof (is_new_get id p N (proj1 K)). unfold get in *. cbn in X. congruence.
  - destruct (get p id) as [[]|] eqn:E; try (intros [= <-]; exact G). apply updated_good. intros q o ok.
    apply (client_open_good os id p c q o ok (GB id) (good_held p id _ G E)).
  - destruct (get p id) as [[]|] eqn:E; try (intros [= <-]; exact G). apply updated_good. intros q o ok.
    apply (server_open_good os id p s q o ok (GB id) (good_held p id _ G E)).
  - destruct (get p id) as [[]|] eqn:E; try (intros [= <-]; exact G). apply updated_good. intros q o ok.
    apply (port_open_good b os there id p s q o ok (GB id) (good_held p id _ G E)).
  - destruct (get p id) as [[]|] eqn:E; try (intros [= <-]; exact G). apply updated_good. intros q o ok.
    apply (file_open_good os id p f q o ok (GB id) (good_held p id _ G E)).
  - destruct (get p id) as [[]|] eqn:E; try (intros [= <-]; exact G). apply updated_good. intros q o r.
    apply (server_listen_good ok id p s q o r (GB id) (good_held p id _ G E)).
  - destruct (get p id) as [[]|] eqn:E; try (intros [= <-]; exact G). apply updated_good. intros q o r Q.
    destruct (port_query_good there id p s q o r (GB id) (good_held p id _ G E) Q) as (A & B & _). auto.
  - destruct (get p id) as [[]|] eqn:E; try (intros [= <-]; exact G); apply updated2_good; intros q o Q.
    + unfold client_hangup in Q. destruct (c_open c) eqn:O.
      * destruct (client_close_good id p c q o (GB id) (good_held p id _ G E) O Q) as (A & B & _). auto.
      * injection Q as <- <-. split; [apply GB | apply (good_held p id _ G E)].
    + unfold server_hangup in Q. destruct (negb writing && negb (s_open s)) eqn:W.
      * injection Q as <- <-. split; [apply GB | apply (good_held p id _ G E)].
      * destruct (s_peer s); [|discriminate].
        assert (O : s_open s = true) by (destruct writing; [cbn in M; rewrite E in M; exact M | destruct (s_open s); [reflexivity | discriminate]]).
        destruct (server_close_good id p s q o (GB id) (good_held p id _ G E) O Q) as (A & B & _). auto.
  - cbn in M. destruct (get p id) as [[]|] eqn:E; try (intros [= <-]; exact G).
    + apply updated2_good; intros q o Q. destruct (client_close_good id p c q o (GB id) (good_held p id _ G E) M Q) as (A & B & _). auto.
    + apply updated2_good; intros q o Q. destruct (server_close_good id p s q o (GB id) (good_held p id _ G E) M Q) as (A & B & _). auto.
    + apply updated2_good; intros q o Q. destruct (port_close_good id p s q o (GB id) (good_held p id _ G E) Q) as (A & B & _). auto.
    + apply updated_good; intros q o r Q. apply (file_close_good ok id p f q o r (GB id) (good_held p id _ G E) Q).
  - cbn in M. destruct (get p id) as [[]|] eqn:E; try (intros [= <-]; exact G); apply destroyed_good; intros q o Q.
    + destruct (client_close_good id p c q o (GB id) (good_held p id _ G E) M Q) as (A & B & _). auto.
    + destruct (server_close_good id p s q o (GB id) (good_held p id _ G E) M Q) as (A & B & _). auto.
    + destruct (port_close_good id p s q o (GB id) (good_held p id _ G E) Q) as (A & B & _). auto.
    + destruct (file_close true id p f) as [[[q1 o1] r]| |] eqn:F; [|discriminate|discriminate]. injection Q as <- <-.
      apply (file_close_good true id p f q1 o1 r (GB id) (good_held p id _ G E) F).
  - intros [= <-]. destruct G as [T C]. split; [|exact C]. intros i o fd Gi F. apply owner_sys_open. apply (T i o fd Gi F).
  - intros [= <-]. destruct (owner (tab p) fd) as [w|] eqn:O; [|exact G]. destruct w as [|w|w]; try exact G.
    destruct G as [T C]. split.
    + intros i o f Gi F. rewrite owner_sys_close; [apply (T i o f Gi F)|]. intros ->.
      rewrite (T i o fd Gi F) in O. injection O as ->.
      apply (proj2 K). apply (proj1 K 0 o Gi).
    + intros i w Hi. cbn in Hi. apply in_app_or in Hi. destruct Hi as [Hi | [Hi | []]]; [apply (C i w Hi)|]. injection Hi as <- <-. exact O.
Qed.

Lemma run_good b es : forall p p', good p -> known p -> mindfully b es p -> run b es p = Ok p' -> good p' /\ known p'.
Proof.
  induction es as [|e es IH]; cbn; intros p p' G K M R; [injection R as <-; auto|].
  destruct (step b e p) as [q| |] eqn:E; [|discriminate|discriminate]. destruct M as [M1 M2].
  apply (IH q p'); [apply (step_good b e p q G K M1 E) | apply (step_known b e p q K E) | apply (M2 q eq_refl) | exact R].
Qed.
Lemma good0 : good proc0 /\ known proc0.
Proof.
  split; [split; [intros id o fd; cbn; discriminate | intros id w; cbn; tauto] | split; [intros i o; cbn; discriminate | cbn; tauto]].
Qed.

(** * Descriptors that can no longer be reached *)
Definition tight (id : Z) (o : option obj) (t : table) : Prop :=
  forall fd, In (fd, id) t -> exists x, o = Some x /\ holds x = Some fd.
Lemma in_open i id fd p : In (fd, i) (tab (snd (sys_open id p))) -> (fd = lowest (tab p) /\ i = id) \/ In (fd, i) (tab p).
Proof. cbn. intros [E | H]; [injection E as <- <-; auto | auto]. Qed.
Lemma in_close i id f fd p : In (fd, i) (tab (sys_close id f p)) -> In (fd, i) (tab p) /\ fd <> f.
Proof. cbn. intros H. apply filter_In in H. cbn in H. destruct H as [H N]. split; [exact H | lia]. Qed.

(** Nothing of other objects is added by a call on [id]. *)
Definition grows (id : Z) (t t' : table) : Prop := forall i fd, i <> id -> In (fd, i) t' -> In (fd, i) t.
Lemma grows_refl id t : grows id t t. Proof. intros i fd _ H. exact H. Qed.
Lemma grows_trans id t u v : grows id t u -> grows id u v -> grows id t v.
Proof. intros A B i fd N H. apply (A i fd N), (B i fd N), H. Qed.
Lemma grows_open id p : grows id (tab p) (tab (snd (sys_open id p))).
Proof. intros i fd N H. apply in_open in H. destruct H as [[_ H] | H]; [contradiction | exact H]. Qed.
Lemma grows_close id j f p : grows id (tab p) (tab (sys_close j f p)).
Proof. intros i fd N H. apply (in_close _ _ _ _ _ H). Qed.

Definition only (id : Z) (o : obj) (p : proc) : Prop := forall fd, In (fd, id) (tab p) -> holds o = Some fd.
Lemma only_none id o p : (forall fd, ~ In (fd, id) (tab p)) -> only id o p.
Proof. intros H fd I. destruct (H fd I). Qed.
Lemma none_only id o p : holds o = None -> only id o p -> forall fd, ~ In (fd, id) (tab p).
Proof. intros H O fd I. rewrite (O fd I) in H. discriminate. Qed.

Lemma client_close_only id p c p' c' : only id (Client c) p -> client_close id p c = Ok (p', c') ->
  (forall fd, ~ In (fd, id) (tab p')) /\ c_open c' = false /\ grows id (tab p) (tab p').
Proof.
  unfold client_close. intros O. destruct (c_fd c) as [f|] eqn:F; [|discriminate]. intros [= <- <-].
  split; [|split; [reflexivity | apply grows_close]]. intros fd H. apply in_close in H. destruct H as [H N].
  specialize (O fd H). cbn in O. destruct (c_open c); [congruence | discriminate].
Qed.
Lemma opened_only id p w : (forall fd, ~ In (fd, id) (tab p)) -> holds w = Some (lowest (tab p)) -> only id w (snd (sys_open id p)).
Proof. intros N H fd I. apply in_open in I. destruct I as [[-> _] | I]; [exact H | destruct (N fd I)]. Qed.
Lemma reclosed_none id p : (forall fd, ~ In (fd, id) (tab p)) ->
  forall fd, ~ In (fd, id) (tab (sys_close id (lowest (tab p)) (snd (sys_open id p)))).
Proof.
  intros N fd I. apply in_close in I. destruct I as [I D]. apply in_open in I. destruct I as [[-> _] | I]; [congruence | destruct (N fd I)].
Qed.
Lemma client_open_only os id p c p' c' ok : only id (Client c) p -> client_open os id p c = Ok (p', c', ok) ->
  only id (Client c') p' /\ grows id (tab p) (tab p') /\ (ok = false -> forall fd, ~ In (fd, id) (tab p')).
Proof.
  unfold client_open. intros O. destruct (if c_open c then _ else _) as [[p1 c1]| |] eqn:E; [|discriminate|discriminate].
  assert (K : (forall fd, ~ In (fd, id) (tab p1)) /\ grows id (tab p) (tab p1)).
  { destruct (c_open c) eqn:Oc.
    - destruct (client_close_only _ _ _ _ _ O E) as (A & B & C). auto.
    - injection E as <- <-. split; [apply (none_only id (Client c)); [cbn; now rewrite Oc | exact O] | apply grows_refl]. }
  destruct K as [N1 W1]. cbn [bind].
  destruct os; intros H; injection H as <- <- <-.
  - split; [apply only_none, N1 | split; [exact W1 | intros _; exact N1]].
  - pose proof (reclosed_none id p1 N1) as R. split; [apply only_none; exact R|]. split; [|intros _; exact R].
    apply (grows_trans _ _ _ _ W1). apply (grows_trans _ _ _ _ (grows_open id p1)). apply grows_close.
  - pose proof (reclosed_none id p1 N1) as R. split; [apply only_none; exact R|]. split; [|intros _; exact R].
    apply (grows_trans _ _ _ _ W1). apply (grows_trans _ _ _ _ (grows_open id p1)). apply grows_close.
  - split; [apply (opened_only id p1); [exact N1 | reflexivity] | split; [|discriminate]].
    apply (grows_trans _ _ _ _ W1 (grows_open id p1)).
Qed.
Lemma server_close_only id p c p' c' : only id (Server c) p -> server_close id p c = Ok (p', c') ->
  (forall fd, ~ In (fd, id) (tab p')) /\ s_open c' = false /\ grows id (tab p) (tab p').
Proof.
  unfold server_close. intros O. destruct (s_fd c) as [f|] eqn:F; [|discriminate]. intros [= <- <-].
  split; [|split; [reflexivity | apply grows_close]]. intros fd H. apply in_close in H. destruct H as [H N].
  specialize (O fd H). cbn in O. destruct (s_open c); [congruence | discriminate].
Qed.
Lemma server_open_only os id p c p' c' ok : only id (Server c) p -> server_open os id p c = Ok (p', c', ok) ->
  only id (Server c') p' /\ grows id (tab p) (tab p') /\ (ok = false -> os <> SNoBind -> forall fd, ~ In (fd, id) (tab p')).
Proof.
  unfold server_open. intros O. destruct (if s_open c then _ else _) as [[p1 c1]| |] eqn:E; [|discriminate|discriminate].
  assert (K : (forall fd, ~ In (fd, id) (tab p1)) /\ grows id (tab p) (tab p1)).
  { destruct (s_open c) eqn:Oc.
    - destruct (server_close_only _ _ _ _ _ O E) as (A & B & C). auto.
    - injection E as <- <-. split; [apply (none_only id (Server c)); [cbn; now rewrite Oc | exact O] | apply grows_refl]. }
  destruct K as [N1 W1]. cbn [bind].
  destruct os; intros H; injection H as <- <- <-.
  - split; [apply only_none, N1 | split; [exact W1 | intros _ _; exact N1]].
  - split; [apply (opened_only id p1); [exact N1 | reflexivity] | split; [|congruence]].
    apply (grows_trans _ _ _ _ W1 (grows_open id p1)).
  - split; [apply (opened_only id p1); [exact N1 | reflexivity] | split; [|congruence]].
    apply (grows_trans _ _ _ _ W1 (grows_open id p1)).
Qed.
Lemma server_listen_only id p c p' c' r : only id (Server c) p -> server_listen false id p c = Ok (p', c', r) ->
  only id (Server c') p' /\ grows id (tab p) (tab p').
Proof.
  unfold server_listen. intros O. destruct (s_fd c) as [f|] eqn:F; [|discriminate]. cbn. intros [= <- <- <-].
  split; [|apply grows_refl]. intros fd H. specialize (O fd H). cbn in *. now rewrite F in O.
Qed.
Lemma server_listen_grows ok id p c p' c' r : server_listen ok id p c = Ok (p', c', r) -> grows id (tab p) (tab p').
Proof.
  unfold server_listen. destruct (s_fd c); [|discriminate]. destruct (ok && _); intros H; injection H as <- <- <-;
  [apply grows_open | apply grows_refl].
Qed.
Lemma port_close_only id p c p' c' : only id (Port c) p -> port_close id p c = Ok (p', c') ->
  (forall fd, ~ In (fd, id) (tab p')) /\ p_open c' = Some false /\ grows id (tab p) (tab p').
Proof.
  unfold port_close. intros O. destruct (p_open c) as [[]|] eqn:B; [| |discriminate].
  - destruct (p_fd c) as [f|] eqn:F; [|discriminate]. intros [= <- <-].
    split; [|split; [reflexivity | apply grows_close]]. intros fd H. apply in_close in H. destruct H as [H N].
    specialize (O fd H). cbn in O. rewrite B in O. congruence.
  - intros [= <- <-]. split; [apply (none_only id (Port c)); [cbn; now rewrite B | exact O] | split; [exact B | apply grows_refl]].
Qed.
Lemma port_query_only th id p c p' c' r : only id (Port c) p -> port_query th id p c = Ok (p', c', r) ->
  only id (Port c') p' /\ p_open c' = Some r /\ grows id (tab p) (tab p').
Proof.
  unfold port_query. intros O. destruct (p_open c) as [[]|] eqn:B; [destruct th| |discriminate].
  - intros [= <- <- <-]. split; [exact O | split; [exact B | apply grows_refl]].
  - destruct (port_close id p c) as [[q s]| |] eqn:E; [|discriminate|discriminate]. cbn. intros [= <- <- <-].
    destruct (port_close_only _ _ _ _ _ O E) as (A & B1 & C). split; [apply only_none, A | auto].
  - intros [= <- <- <-]. split; [exact O | split; [exact B | apply grows_refl]].
Qed.
Definition late (os : port_os) : bool := match os with BadBaud | Locked | NoSpeed => true | _ => false end.
Lemma port_open_only b os th id p c p' c' ok : only id (Port c) p -> late os = false ->
  (os = BadStopBits -> throws b = false -> p_open c <> Some true) ->
  port_open b os th id p c = Ok (p', c', ok) ->
  only id (Port c') p' /\ grows id (tab p) (tab p') /\ (ok = false -> os = BadStopBits \/ forall fd, ~ In (fd, id) (tab p')).
Proof.
  intros O L SB. unfold port_open. destruct os; try discriminate L.
  { intros [= <- <- <-]. split; [|split; [apply grows_refl | auto]]. destruct (throws b); [exact O|].
    apply only_none, (none_only id (Port c)); [|exact O]. cbn. specialize (SB eq_refl eq_refl).
    destruct (p_open c) as [[]|]; congruence. }
  all: destruct (port_query th id p c) as [[[p1 s1] iso]| |] eqn:Q; [|discriminate|discriminate];
    destruct (port_query_only _ _ _ _ _ _ _ O Q) as (O1 & B1 & W1); cbn [bind];
    destruct (if iso then port_close id p1 s1 else Ok (p1, s1)) as [[p2 s2]| |] eqn:C; [|discriminate|discriminate];
    cbn [bind];
    (assert (K : (forall fd, ~ In (fd, id) (tab p2)) /\ grows id (tab p) (tab p2)) by
      (destruct iso; [destruct (port_close_only _ _ _ _ _ O1 C) as (A & _ & B); split; [exact A | apply (grows_trans _ _ _ _ W1 B)] |
        injection C as <- <-; split; [apply (none_only id (Port s1)); [cbn; now rewrite B1 | exact O1] | exact W1]]));
    destruct K as [N2 W2].
  - intros [= <- <- <-]. split; [apply only_none, N2 | split; [exact W2 | auto]].
  - destruct (p_wait s2) as [w|] eqn:W; [|unfold sys_open; discriminate]. unfold sys_open at 1.
    intros H; injection H as <- <- <-. split; [apply (opened_only id p2); [exact N2 | reflexivity] | split; [|discriminate]].
    apply (grows_trans _ _ _ _ W2 (grows_open id p2)).
Qed.
Lemma port_open_grows b os th id p c p' c' ok : port_open b os th id p c = Ok (p', c', ok) -> grows id (tab p) (tab p').
Proof.
  assert (PC : forall q s q' s', port_close id q s = Ok (q', s') -> grows id (tab q) (tab q')).
  { intros q s q' s'. unfold port_close. destruct (p_open s) as [[]|]; [destruct (p_fd s); [|discriminate]| |discriminate];
    intros [= <- <-]; [apply grows_close | apply grows_refl]. }
  unfold port_open. destruct os; [intros [= <- <- <-]; apply grows_refl| | | | |];
  (destruct (port_query th id p c) as [[[p1 s1] iso]| |] eqn:Q; [|discriminate|discriminate]; cbn [bind];
   destruct (if iso then _ else _) as [[p2 s2]| |] eqn:C; [|discriminate|discriminate]; cbn [bind];
   assert (W2 : grows id (tab p) (tab p2)) by
     (apply (grows_trans id _ (tab p1));
      [unfold port_query in Q; destruct (p_open c) as [[]|]; [destruct th| |discriminate]; try (injection Q as <- <- <-; apply grows_refl);
       destruct (port_close id p c) as [[q s]| |] eqn:E; [|discriminate|discriminate]; injection Q as <- <- <-; apply (PC _ _ _ _ E) |
       destruct iso; [apply (PC _ _ _ _ C) | injection C as <- <-; apply grows_refl]])).
  - intros [= <- <- <-]. exact W2.
  - intros H; injection H as <- <- <-. apply (grows_trans _ _ _ _ W2 (grows_open id p2)).
  - intros H; injection H as <- <- <-. apply (grows_trans _ _ _ _ W2 (grows_open id p2)).
  - intros H; injection H as <- <- <-. apply (grows_trans _ _ _ _ W2 (grows_open id p2)).
  - unfold sys_open. destruct (p_wait s2); [|discriminate]. intros H; injection H as <- <- <-. apply (grows_trans _ _ _ _ W2 (grows_open id p2)).
Qed.
Lemma file_open_grows os id p f p' f' ok : file_open os id p f = Ok (p', f', ok) -> grows id (tab p) (tab p').
Proof. destruct os; cbn; intros H; injection H as <- <- <-; [apply grows_refl | apply (grows_open id p) | apply (grows_open id p)]. Qed.
Lemma file_open_only os id p f p' f' ok : only id (File f) p -> os <> FNoStream -> (os = FOpened -> holds (File f) = None) ->
  file_open os id p f = Ok (p', f', ok) -> only id (File f') p' /\ (ok = false -> p' = p /\ f' = f).
Proof.
  intros O N1 N2. destruct os; [| congruence |]; intros H; injection H as <- <- <-.
  - auto.
  - split; [|discriminate]. apply (opened_only id p); [apply (none_only id (File f)); [apply N2; reflexivity | exact O] | reflexivity].
Qed.
Lemma file_close_only ok id p f p' f' r : only id (File f) p -> file_close ok id p f = Ok (p', f', r) ->
  (forall fd, ~ In (fd, id) (tab p')) /\ grows id (tab p) (tab p').
Proof.
  unfold file_close. intros O. destruct (f_file f) as [[fd []]|] eqn:F; [|discriminate|].
  - intros [= <- <- <-]. split; [|apply grows_close]. intros g H. apply in_close in H. destruct H as [H N].
    specialize (O g H). cbn in O. rewrite F in O. congruence.
  - intros [= <- <- <-]. split; [apply (none_only id (File f)); [cbn; now rewrite F | exact O] | apply grows_refl].
Qed.
Lemma client_close_grows id p c p' c' : client_close id p c = Ok (p', c') -> grows id (tab p) (tab p').
Proof. unfold client_close. destruct (c_fd c); [|discriminate]. intros [= <- <-]. apply grows_close. Qed.
Lemma server_close_grows id p c p' c' : server_close id p c = Ok (p', c') -> grows id (tab p) (tab p').
Proof. unfold server_close. destruct (s_fd c); [|discriminate]. intros [= <- <-]. apply grows_close. Qed.
Lemma port_close_grows id p s p' s' : port_close id p s = Ok (p', s') -> grows id (tab p) (tab p').
Proof.
  unfold port_close. destruct (p_open s) as [[]|]; [destruct (p_fd s); [|discriminate]| |discriminate];
  intros [= <- <-]; [apply grows_close | apply grows_refl].
Qed.
Lemma file_close_grows ok id p f p' f' r : file_close ok id p f = Ok (p', f', r) -> grows id (tab p) (tab p').
Proof.
  unfold file_close. destruct (f_file f) as [[fd []]|]; [|discriminate|]; intros H; injection H as <- <- <-; [apply grows_close | apply grows_refl].
Qed.
Lemma client_open_grows os id p c p' c' ok : client_open os id p c = Ok (p', c', ok) -> grows id (tab p) (tab p').
Proof.
  unfold client_open. destruct (if c_open c then _ else _) as [[p1 c1]| |] eqn:E; [|discriminate|discriminate].
  assert (W1 : grows id (tab p) (tab p1)) by (destruct (c_open c); [apply (client_close_grows _ _ _ _ _ E) | injection E as <- <-; apply grows_refl]).
  cbn [bind]. destruct os; intros H; injection H as <- <- <-; [exact W1 | | |].
  - apply (grows_trans _ _ _ _ W1), (grows_trans _ _ _ _ (grows_open id p1)), grows_close.
  - apply (grows_trans _ _ _ _ W1), (grows_trans _ _ _ _ (grows_open id p1)), grows_close.
  - apply (grows_trans _ _ _ _ W1 (grows_open id p1)).
Qed.
Lemma server_open_grows os id p c p' c' ok : server_open os id p c = Ok (p', c', ok) -> grows id (tab p) (tab p').
Proof.
  unfold server_open. destruct (if s_open c then _ else _) as [[p1 c1]| |] eqn:E; [|discriminate|discriminate].
  assert (W1 : grows id (tab p) (tab p1)) by (destruct (s_open c); [apply (server_close_grows _ _ _ _ _ E) | injection E as <- <-; apply grows_refl]).
  cbn [bind]. destruct os; intros H; injection H as <- <- <-; [exact W1 | |]; apply (grows_trans _ _ _ _ W1 (grows_open id p1)).
Qed.
Lemma port_query_grows th id p c p' c' r : port_query th id p c = Ok (p', c', r) -> grows id (tab p) (tab p').
Proof.
  unfold port_query. destruct (p_open c) as [[]|]; [destruct th| |discriminate]; try (intros [= <- <- <-]; apply grows_refl).
  destruct (port_close id p c) as [[q s]| |] eqn:E; [|discriminate|discriminate]. cbn. intros [= <- <- <-]. apply (port_close_grows _ _ _ _ _ E).
Qed.

(** The calls that lose track of a descriptor of [id]. *)
Definition loses (b : build) (id : Z) (e : event) (p : proc) : Prop :=
  match e with
  | Listen i ok => i = id /\ ok = true
  | MakeServer i _ os => i = id /\ os = SNoBind /\ throws b = true
  | MakePort i _ os => i = id /\ late os = true
  | OpenPort i os _ => i = id /\ (late os = true \/ (os = BadStopBits /\ throws b = false /\
                                  match get p i with Some (Port s) => p_open s = Some true | _ => False end))
  | MakeFile i os => i = id /\ os = FNoStream
  | OpenFile i os => i = id /\ (os = FNoStream \/ (os = FOpened /\ match get p i with Some o => reports_open o = true | _ => False end))
  | _ => False
  end.
Fixpoint keeps_track (b : build) (id : Z) (es : list event) (p : proc) : Prop :=
  match es with [] => True | e :: es' => ~ loses b id e p /\ forall p', step b e p = Ok p' -> keeps_track b id es' p' end.

Definition kept (id : Z) (p : proc) : Prop := tight id (get p id) (tab p).
Lemma kept_other id i p q : i <> id -> kept id p -> get q id = get p id -> grows i (tab p) (tab q) -> kept id q.
Proof. intros N K E W fd H. rewrite E. apply (K fd). apply (W id fd (not_eq_sym N) H). Qed.
Lemma kept_put id o q : only id o q -> kept id (put id o q).
Proof. intros O fd H. rewrite get_put, Z.eqb_refl. exists o. split; [reflexivity | apply (O fd H)]. Qed.
Lemma kept_none id q : (forall fd, ~ In (fd, id) (tab q)) -> kept id q.
Proof. intros N fd H. destruct (N fd H). Qed.
Lemma kept_only id o p : kept id p -> get p id = Some o -> only id o p.
Proof. intros K G fd H. destruct (K fd H) as (x & E & F). congruence. Qed.
Lemma kept_new id p : kept id p -> get p id = None -> forall fd, ~ In (fd, id) (tab p).
Proof. intros K G fd H. destruct (K fd H) as (x & E & F). congruence. Qed.
Lemma get_put_other id i o q : i <> id -> get (put i o q) id = get q id.
Proof. intros N. rewrite get_put. destruct (id =? i) eqn:E; [lia | reflexivity]. Qed.

Lemma constructed_kept {A} b (wrap : A -> obj) i m p p' id : known p -> is_new i p = true -> kept id p ->
  (forall q o ok, m = Ok (q, o, ok) -> same_objs (created i p) q /\ grows i (tab p) (tab q) /\
     (i = id -> only id (wrap o) q /\ (ok = false -> throws b = true -> forall fd, ~ In (fd, id) (tab q)))) ->
  constructed b wrap i m = Ok p' -> kept id p'.
Proof.
  intros K N Kp H. unfold constructed. destruct m as [[[q o] ok]| |]; [|discriminate|discriminate]. cbn.
  destruct (H q o ok eq_refl) as (Sm & W & F). intros [= <-].
  destruct (Z.eq_dec i id) as [E|E].
  - subst i. destruct (F eq_refl) as [F1 F2]. destruct (ok || negb (throws b)) eqn:B; [apply kept_put, F1|].
    apply kept_none, F2; [destruct ok; [discriminate | reflexivity] | destruct ok, (throws b); try discriminate; reflexivity].
  - assert (Gq : get q id = get p id) by (rewrite (same_objs_get _ _ _ Sm); reflexivity).
    destruct (ok || negb (throws b)).
    + apply (kept_other id i p); [exact E | exact Kp | rewrite get_put_other by exact E; exact Gq | exact W].
    + apply (kept_other id i p); [exact E | exact Kp | exact Gq | exact W].
Qed.
Lemma updated_kept {A} (wrap : A -> obj) i m p p' id : kept id p ->
  (forall q o ok, m = Ok (q, o, ok) -> same_objs p q /\ grows i (tab p) (tab q) /\ (i = id -> only id (wrap o) q)) ->
  updated wrap i m = Ok p' -> kept id p'.
Proof.
  intros Kp H. unfold updated. destruct m as [[[q o] ok]| |]; [|discriminate|discriminate]. cbn.
  destruct (H q o ok eq_refl) as (Sm & W & F). intros [= <-].
  destruct (Z.eq_dec i id) as [E|E]; [subst i; apply kept_put, F; reflexivity|].
  apply (kept_other id i p); [exact E | exact Kp | rewrite get_put_other by exact E; apply (same_objs_get _ _ _ Sm) | exact W].
Qed.
Lemma updated2_kept {A} (wrap : A -> obj) i m p p' id : kept id p ->
  (forall q o, m = Ok (q, o) -> same_objs p q /\ grows i (tab p) (tab q) /\ (i = id -> only id (wrap o) q)) ->
  updated2 wrap i m = Ok p' -> kept id p'.
Proof.
  intros Kp H. unfold updated2. destruct m as [[q o]| |]; [|discriminate|discriminate]. cbn.
  destruct (H q o eq_refl) as (Sm & W & F). intros [= <-].
  destruct (Z.eq_dec i id) as [E|E]; [subst i; apply kept_put, F; reflexivity|].
  apply (kept_other id i p); [exact E | exact Kp | rewrite get_put_other by exact E; apply (same_objs_get _ _ _ Sm) | exact W].
Qed.
Lemma destroyed_kept {A} i (m : res (proc * A)) p p' id : kept id p ->
  (forall q o, m = Ok (q, o) -> same_objs p q /\ grows i (tab p) (tab q) /\ (i = id -> forall fd, ~ In (fd, id) (tab q))) ->
  destroyed i m = Ok p' -> kept id p'.
Proof.
  intros Kp H. unfold destroyed. destruct m as [[q o]| |]; [|discriminate|discriminate]. cbn.
  destruct (H q o eq_refl) as (Sm & W & F). intros [= <-].
  destruct (Z.eq_dec i id) as [E|E]; [apply kept_none; intros fd I; apply (F E fd I)|].
  apply (kept_other id i p); [exact E | exact Kp | rewrite get_gone; destruct (id =? i) eqn:X; [lia | apply (same_objs_get _ _ _ Sm)] | exact W].
Qed.
Lemma new_kept i o p id : known p -> is_new i p = true -> kept id p -> kept id (put i o (created i p)).
Proof.
  intros K N Kp. destruct (Z.eq_dec i id) as [E|E].
  - subst i. apply kept_put, only_none. apply (kept_new id p Kp (is_new_get id p N (proj1 K))).
  - apply (kept_other id i p); [exact E | exact Kp | rewrite get_put_other by exact E; reflexivity | apply grows_refl].
Qed.

Lemma step_kept b e p p' id : id <> 0 -> known p -> kept id p -> ~ loses b id e p -> step b e p = Ok p' -> kept id p'.
Proof.
  intros Hz K Kp L.
  assert (NN : forall i, is_new i p = true -> i = id -> forall fd, ~ In (fd, id) (tab p))
    by (intros i N ->; apply (kept_new id p Kp (is_new_get id p N (proj1 K)))).
  destruct e as [i st|i st|i st|i|i st os|i st os|i st os|i os|i os|i os|i os th|i os|i ok|i th|i w|i ok|i| |fd]; cbn [step].
  1-4: intros [= <-]; destruct (is_new i p) eqn:N; [apply (new_kept _ _ _ _ K N Kp) | exact Kp].
  1-4: destruct (is_new i p) eqn:N; [|intros [= <-]; exact Kp]; apply (constructed_kept _ _ _ _ _ _ _ K N Kp); intros q o r E.
  - split; [apply (same_client_open _ _ _ _ _ _ _ E) | split; [apply (client_open_grows _ _ _ _ _ _ _ E)|]]. intros ->.
    destruct (client_open_only _ _ _ _ _ _ _ (only_none id (Client (fresh_client st)) (created id p) (NN id N eq_refl)) E) as (A & _ & C).
    split; [exact A | intros F _; apply (C F)].
  - split; [apply (same_server_open _ _ _ _ _ _ _ E) | split; [apply (server_open_grows _ _ _ _ _ _ _ E)|]]. intros ->.
    destruct (server_open_only _ _ _ _ _ _ _ (only_none id (Server (fresh_server st)) (created id p) (NN id N eq_refl)) E) as (A & _ & C).
    split; [exact A | intros F Tb; apply (C F)]. intros ->. apply L. cbn. auto.
  - split; [apply (same_port_open _ _ _ _ _ _ _ _ _ E) | split; [apply (port_open_grows _ _ _ _ _ _ _ _ _ E)|]]. intros ->.
    assert (Lt : late os = false) by (destruct (late os) eqn:X; [destruct L; cbn; auto | reflexivity]).
    assert (SB : os = BadStopBits -> throws b = false -> p_open (opening_port st) <> Some true) by (intros _ _; destruct st; discriminate).
    destruct (port_open_only _ _ _ _ _ _ _ _ _ (only_none id (Port (opening_port st)) (created id p) (NN id N eq_refl)) Lt SB E) as (A & _ & C).
    split; [exact A | intros F Tb]. destruct (C F) as [-> | C1]; [|exact C1].
    injection E as <- _ _. apply (NN id N eq_refl).
  - split; [apply (same_file_open _ _ _ _ _ _ _ E) | split; [apply (file_open_grows _ _ _ _ _ _ _ E)|]]. intros ->.
    assert (Nn : os <> FNoStream) by (intros ->; apply L; cbn; auto).
    destruct (file_open_only _ _ _ _ _ _ _ (only_none id (File fresh_file) (created id p) (NN id N eq_refl)) Nn (fun _ => eq_refl) E) as (A & C).
    split; [exact A | intros F _]. destruct (C F) as [-> _]. apply (NN id N eq_refl).
  - destruct (get p i) as [[c|s|s|f]|] eqn:G; try (intros [= <-]; exact Kp). apply (updated_kept _ _ _ p _ _ Kp). intros q o r E.
    split; [apply (same_client_open _ _ _ _ _ _ _ E) | split; [apply (client_open_grows _ _ _ _ _ _ _ E)|]]. intros ->.
    apply (client_open_only _ _ _ _ _ _ _ (kept_only id _ p Kp G) E).
  - destruct (get p i) as [[c|s|s|f]|] eqn:G; try (intros [= <-]; exact Kp). apply (updated_kept _ _ _ p _ _ Kp). intros q o r E.
    split; [apply (same_server_open _ _ _ _ _ _ _ E) | split; [apply (server_open_grows _ _ _ _ _ _ _ E)|]]. intros ->.
    apply (server_open_only _ _ _ _ _ _ _ (kept_only id _ p Kp G) E).
  - destruct (get p i) as [[c|s|s|f]|] eqn:G; try (intros [= <-]; exact Kp). apply (updated_kept _ _ _ p _ _ Kp). intros q o r E.
    split; [apply (same_port_open _ _ _ _ _ _ _ _ _ E) | split; [apply (port_open_grows _ _ _ _ _ _ _ _ _ E)|]]. intros ->.
    assert (Lt : late os = false) by (destruct (late os) eqn:X; [destruct L; cbn; auto | reflexivity]).
    assert (SB : os = BadStopBits -> throws b = false -> p_open s <> Some true)
      by (intros Eo Tb Po; apply L; cbn; rewrite G; auto).
    apply (port_open_only _ _ _ _ _ _ _ _ _ (kept_only id _ p Kp G) Lt SB E).
  - destruct (get p i) as [[c|s|s|f]|] eqn:G; try (intros [= <-]; exact Kp). apply (updated_kept _ _ _ p _ _ Kp). intros q o r E.
    split; [apply (same_file_open _ _ _ _ _ _ _ E) | split; [apply (file_open_grows _ _ _ _ _ _ _ E)|]]. intros ->.
    assert (Nn : os <> FNoStream) by (intros ->; apply L; cbn; auto).
    assert (No : os = FOpened -> holds (File f) = None).
    { intros Eo. cbn. destruct (f_file f) as [[fd []]|] eqn:F; [|reflexivity|reflexivity]. exfalso. apply L. cbn. rewrite G. cbn. rewrite F. auto. }
    apply (file_open_only _ _ _ _ _ _ _ (kept_only id _ p Kp G) Nn No E).
  - destruct (get p i) as [[c|s|s|f]|] eqn:G; try (intros [= <-]; exact Kp). apply (updated_kept _ _ _ p _ _ Kp). intros q o r E.
    split; [apply (same_listen _ _ _ _ _ _ _ E) | split; [apply (server_listen_grows _ _ _ _ _ _ _ E)|]]. intros ->.
    destruct ok; [destruct L; cbn; auto|]. apply (server_listen_only _ _ _ _ _ _ (kept_only id _ p Kp G) E).
  - destruct (get p i) as [[c|s|s|f]|] eqn:G; try (intros [= <-]; exact Kp). apply (updated_kept _ _ _ p _ _ Kp). intros q o r E.
    split; [apply (same_port_query _ _ _ _ _ _ _ E) | split; [apply (port_query_grows _ _ _ _ _ _ _ E)|]]. intros ->.
    apply (port_query_only _ _ _ _ _ _ _ (kept_only id _ p Kp G) E).
  - destruct (get p i) as [[c|s|s|f]|] eqn:G; try (intros [= <-]; exact Kp); apply (updated2_kept _ _ _ p _ _ Kp); intros q o E.
    + split; [apply (same_client_hangup _ _ _ _ _ E)|]. unfold client_hangup in E. destruct (c_open c) eqn:O.
      * split; [apply (client_close_grows _ _ _ _ _ E)|]. intros ->.
        apply only_none. apply (client_close_only _ _ _ _ _ (kept_only id _ p Kp G) E).
      * injection E as <- <-. split; [apply grows_refl | intros ->; apply (kept_only id _ p Kp G)].
    + split; [apply (same_server_hangup _ _ _ _ _ _ E)|]. unfold server_hangup in E. destruct (negb w && _) eqn:O.
      * injection E as <- <-. split; [apply grows_refl | intros ->; apply (kept_only id _ p Kp G)].
      * destruct (s_peer s); [|discriminate]. split; [apply (server_close_grows _ _ _ _ _ E)|]. intros ->.
        apply only_none. apply (server_close_only _ _ _ _ _ (kept_only id _ p Kp G) E).
  - destruct (get p i) as [[c|s|s|f]|] eqn:G; try (intros [= <-]; exact Kp).
    + apply (updated2_kept _ _ _ p _ _ Kp); intros q o E.
      split; [apply (same_client_close _ _ _ _ _ E) | split; [apply (client_close_grows _ _ _ _ _ E)|]]. intros ->.
      apply only_none. apply (client_close_only _ _ _ _ _ (kept_only id _ p Kp G) E).
    + apply (updated2_kept _ _ _ p _ _ Kp); intros q o E.
      split; [apply (same_server_close _ _ _ _ _ E) | split; [apply (server_close_grows _ _ _ _ _ E)|]]. intros ->.
      apply only_none. apply (server_close_only _ _ _ _ _ (kept_only id _ p Kp G) E).
    + apply (updated2_kept _ _ _ p _ _ Kp); intros q o E.
      split; [apply (same_port_close _ _ _ _ _ E) | split; [apply (port_close_grows _ _ _ _ _ E)|]]. intros ->.
      apply only_none. apply (port_close_only _ _ _ _ _ (kept_only id _ p Kp G) E).
    + apply (updated_kept _ _ _ p _ _ Kp); intros q o r E.
      split; [apply (same_file_close _ _ _ _ _ _ _ E) | split; [apply (file_close_grows _ _ _ _ _ _ _ E)|]]. intros ->.
      apply only_none. apply (file_close_only _ _ _ _ _ _ _ (kept_only id _ p Kp G) E).
  - destruct (get p i) as [[c|s|s|f]|] eqn:G; try (intros [= <-]; exact Kp); apply (destroyed_kept _ _ p _ _ Kp); intros q o E.
    + split; [apply (same_client_close _ _ _ _ _ E) | split; [apply (client_close_grows _ _ _ _ _ E)|]]. intros ->.
      apply (client_close_only _ _ _ _ _ (kept_only id _ p Kp G) E).
    + split; [apply (same_server_close _ _ _ _ _ E) | split; [apply (server_close_grows _ _ _ _ _ E)|]]. intros ->.
      apply (server_close_only _ _ _ _ _ (kept_only id _ p Kp G) E).
    + split; [apply (same_port_close _ _ _ _ _ E) | split; [apply (port_close_grows _ _ _ _ _ E)|]]. intros ->.
      apply (port_close_only _ _ _ _ _ (kept_only id _ p Kp G) E).
    + destruct (file_close true i p f) as [[[q1 o1] r]| |] eqn:F; [|discriminate|discriminate]. injection E as <- <-.
      split; [apply (same_file_close _ _ _ _ _ _ _ F) | split; [apply (file_close_grows _ _ _ _ _ _ _ F)|]]. intros ->.
      apply (file_close_only _ _ _ _ _ _ _ (kept_only id _ p Kp G) F).
  - intros [= <-]. apply (kept_other id 0 p); [congruence | exact Kp | reflexivity | apply (grows_open 0 p)].
  - intros [= <-]. destruct (owner (tab p) fd) as [[]|]; try exact Kp.
    apply (kept_other id 0 p); [congruence | exact Kp | reflexivity | apply grows_close].
Qed.
Lemma run_kept b id es : id <> 0 -> forall p p', known p -> kept id p -> keeps_track b id es p -> run b es p = Ok p' -> kept id p'.
Proof.
  intros Hz. induction es as [|e es IH]; cbn; intros p p' K Kp L R; [injection R as <-; exact Kp|].
  destruct (step b e p) as [q| |] eqn:E; [|discriminate|discriminate]. destruct L as [L1 L2].
  apply (IH q p'); [apply (step_known b e p q K E) | apply (step_kept b e p q id Hz K Kp L1 E) | apply (L2 q eq_refl) | exact R].
Qed.
Lemma run_known b es : forall p p', known p -> run b es p = Ok p' -> known p'.
Proof.
  induction es as [|e es IH]; cbn; intros p p' K R; [injection R as <-; exact K|].
  destruct (step b e p) as [q| |] eqn:E; [|discriminate|discriminate].
  apply (IH q p' (step_known b e p q K E) R).
Qed.

(** * Stale client handles *)
Lemma holds_reports o fd : holds o = Some fd -> reports_open o = true.
Proof.
  destruct o as [c|s|s|f]; cbn.
  - destruct (c_open c); [reflexivity | discriminate].
  - destruct (s_open s); [reflexivity | discriminate].
  - destruct (p_open s) as [[]|]; [reflexivity | discriminate | discriminate].
  - destruct (f_file f) as [[g []]|]; [reflexivity | discriminate | discriminate].
Qed.
(** Events that call only what a client offers on [id]. *)
Definition client_only (id : Z) (e : event) : Prop :=
  match e with
  | NewServer i _ | NewPort i _ | NewFile i | MakeServer i _ _ | MakePort i _ _ | MakeFile i _ | OpenServer i _ | OpenPort i _ _
  | OpenFile i _ | Listen i _ | QueryPort i _ => i <> id
  | _ => True
  end.
Lemma client_only_keeps b id es : Forall (client_only id) es -> forall p, keeps_track b id es p.
Proof.
  induction 1 as [|e es H _ IH]; intros p; cbn; [exact I|]. split; [|intros q _; apply IH].
  destruct e; cbn in *; tauto.
Qed.
Lemma kept0 id : kept id proc0. Proof. intros fd []. Qed.

(** * Descriptors lost without bound *)
Definition count (id : Z) (t : table) : nat := length (filter (fun q => snd q =? id) t).
Lemma count_open id p : count id (tab (snd (sys_open id p))) = S (count id (tab p)).
Proof. unfold count. cbn. now rewrite Z.eqb_refl. Qed.

(** * Data path *)
Definition got (a : io * option answer) : list Z := match a with (Read _ _ _, Some (Data l)) => l | _ => [] end.
Definition delivered (tr : list (io * option answer)) : list Z := concat (map got tr).
(** What the peer sent before it left. *)
Fixpoint sent (how : leaving) (is : list io) : list Z :=
  match is with
  | [] => []
  | Arrive l :: is' => match how with Stays => l ++ sent how is' | _ => sent how is' end
  | Leave h :: is' => match how with Stays => sent h is' | _ => sent how is' end
  | _ :: is' => sent how is'
  end.
Lemma sent_gone h is : h <> Stays -> sent h is = [].
Proof.
  induction is as [|i is IH]; intros N; cbn; [reflexivity|]. specialize (IH N).
  destruct i; try exact IH; destruct h; try exact IH; congruence.
Qed.
Lemma recv_bytes n k flt c l : recv n k flt c = Some (Bytes l) -> exists m, l = firstn m (pending c).
Proof.
  unfold recv. destruct flt; [discriminate|]. destruct (pending c) as [|x q].
  - destruct (peer c); [discriminate | | discriminate]. intros [= <-]. exists O. reflexivity.
  - intros [= <-]. eexists. reflexivity.
Qed.
Lemma take_drop m c l : l = firstn m (pending c) -> l ++ pending (drop (Zlen l) c) = pending c.
Proof.
  intros ->. unfold drop, Zlen. cbn. rewrite Nat2Z.id, firstn_length.
  transitivity (firstn m (pending c) ++ skipn m (pending c)); [|apply firstn_skipn]. f_equal.
  destruct (Nat.le_gt_cases m (length (pending c))) as [H|H]; [now rewrite Nat.min_l|].
  rewrite Nat.min_r by lia. rewrite skipn_all. symmetry. apply skipn_all2. lia.
Qed.
(** One event: bytes are neither lost, repeated nor reordered. *)
Lemma life_stream server b i s c s' c' a : life server b i s c = (s', c', a) ->
  got (i, a) ++ pending c' = pending c ++ match i, peer c with Arrive l, Stays => l | _, _ => [] end /\
  (peer c' = match i, peer c with Leave h, Stays => h | _, w => w end \/ (peer c = Reset /\ peer c' = Left)).
Proof.
  destruct i as [l|h|n k flt|n k flt|j flt|r|]; cbn [life].
  - intros H; injection H as <- <- <-. destruct (peer c) eqn:P; cbn; rewrite ?app_nil_r, ?P; auto.
  - intros H; injection H as <- <- <-. destruct (peer c) eqn:P; cbn; rewrite ?app_nil_r, ?P; auto.
  - rewrite app_nil_r.
    assert (Hc : forall s' c' a, client_read b n k flt s c = (s', c', a) ->
      got (Read n k flt, Some a) ++ pending c' = pending c /\ (peer c' = peer c \/ (peer c = Reset /\ peer c' = Left))).
    { clear. intros s' c' a. unfold client_read. destruct (k_open s); cbn [negb]; [|intros H; injection H as <- <- <-; auto].
      destruct (recv n k flt c) as [[l|[]]|] eqn:R.
      - destruct l as [|x l]; intros H; injection H as <- <- <-; [auto|]. split; [|left; reflexivity].
        destruct (recv_bytes _ _ _ _ _ R) as [m E]. exact (take_drop m c _ E).
      - intros H; injection H as <- <- <-. unfold reported. cbn. split; [reflexivity|right].
        unfold recv in R. destruct flt; [discriminate|]. destruct (pending c); [|discriminate]. destruct (peer c); [discriminate|discriminate|auto].
      - destruct (debug_throws b); intros H; injection H as <- <- <-; auto.
      - intros H; injection H as <- <- <-; auto. }
    assert (Hs : forall s' c' a, server_read b n k flt s c = (s', c', a) ->
      got (Read n k flt, Some a) ++ pending c' = pending c /\ (peer c' = peer c \/ (peer c = Reset /\ peer c' = Left))).
    { clear. intros s' c' a. unfold server_read. destruct (k_open s); cbn [negb]; [|intros H; injection H as <- <- <-; auto].
      destruct (recv n k flt c) as [[l|r]|] eqn:R.
      - destruct l as [|x l]; intros H; injection H as <- <- <-; [auto|]. split; [|left; reflexivity].
        destruct (recv_bytes _ _ _ _ _ R) as [m E]. exact (take_drop m c _ E).
      - assert (E : peer (reported r c) = peer c \/ (peer c = Reset /\ peer (reported r c) = Left)).
        { destruct r; [right | left; reflexivity]. unfold recv in R. destruct flt; [discriminate|].
          destruct (pending c); [|discriminate]. destruct (peer c); [discriminate|discriminate|auto]. }
        assert (F : pending (reported r c) = pending c) by (destruct r; reflexivity).
        destruct (debug_throws b); intros H; injection H as <- <- <-; cbn; auto.
      - intros H; injection H as <- <- <-; auto. }
    destruct server.
    + destruct (server_read b n k flt s c) as [[s1 c1] a1] eqn:E. intros H; injection H as <- <- <-. apply (Hs _ _ _ eq_refl).
    + destruct (client_read b n k flt s c) as [[s1 c1] a1] eqn:E. intros H; injection H as <- <- <-. apply (Hc _ _ _ eq_refl).
  - rewrite app_nil_r.
    assert (Hp : forall s' c' a, (if server then server_peek else client_peek) b n k flt s c = (s', c', a) ->
      pending c' = pending c /\ (peer c' = peer c \/ (peer c = Reset /\ peer c' = Left))).
    { clear. intros s' c' a. destruct server; unfold server_peek, client_peek; [|destruct (k_open s); cbn [negb]; [|intros H; injection H as <- <- <-; auto]].
      all: destruct (recv n k flt c) as [[l|r]|] eqn:R; [intros H; injection H as <- <- <-; auto| |intros H; injection H as <- <- <-; auto].
      all: assert (E : peer (reported r c) = peer c \/ (peer c = Reset /\ peer (reported r c) = Left)) by
         (destruct r; [right | left; reflexivity]; unfold recv in R; destruct flt; [discriminate|];
          destruct (pending c); [|discriminate]; destruct (peer c); [discriminate|discriminate|auto]).
      all: assert (F : pending (reported r c) = pending c) by (destruct r; reflexivity).
      all: destruct (debug_throws b); intros H; injection H as <- <- <-; auto. }
    destruct ((if server then server_peek else client_peek) b n k flt s c) as [[s1 c1] a1] eqn:E.
    intros H; injection H as <- <- <-. apply (Hp _ _ _ eq_refl).
  - destruct ((if server then server_remaining else client_remaining) b j flt s c) as [s1 a1].
    intros H; injection H as <- <- <-. rewrite app_nil_r. auto.
  - destruct ((if server then server_write else client_write) b r s) as [s1 a1].
    intros H; injection H as <- <- <-. rewrite app_nil_r. auto.
  - intros H; injection H as <- <- <-. rewrite app_nil_r. auto.
Qed.
Lemma lives_stream server b is : forall s c s' c' tr, lives server b is s c = (s', c', tr) ->
  delivered tr ++ pending c' = pending c ++ sent (peer c) is.
Proof.
  induction is as [|i is IH]; cbn [lives]; intros s c s' c' tr.
  - intros H; injection H as <- <- <-. cbn. now rewrite app_nil_r.
  - destruct (life server b i s c) as [[s1 c1] a] eqn:L. destruct (lives server b is s1 c1) as [[s2 c2] tr'] eqn:E.
    intros H; injection H as <- <- <-. specialize (IH _ _ _ _ _ E).
    destruct (life_stream _ _ _ _ _ _ _ _ L) as [A B].
    unfold delivered in *. cbn [map concat]. rewrite <- app_assoc, IH, app_assoc, A, <- app_assoc. f_equal.
    assert (X : sent (peer c1) is = sent (match i, peer c with Leave h, Stays => h | _, w => w end) is).
    { destruct B as [-> | [P Q]]; [reflexivity|]. rewrite Q, P. rewrite sent_gone by discriminate.
      destruct i; rewrite sent_gone; congruence. }
    rewrite X. destruct i; cbn; destruct (peer c) eqn:P; cbn; rewrite ?app_nil_r; auto.
Qed.
(** The open flag never comes back without a new connection. *)
Lemma life_closed server b i s c s' c' a : life server b i s c = (s', c', a) -> k_open s = false -> k_open s' = false.
Proof.
  destruct i as [l|h|n k flt|n k flt|j flt|r|]; cbn [life]; intros H O; try (injection H as <- <- <-; auto; fail).
  - destruct server; unfold server_read, client_read in H; rewrite O in H; cbn in H; injection H as <- <- <-; exact O.
  - destruct server; unfold server_peek, client_peek in H.
    + destruct (recv n k flt c) as [[l|r]|]; [| destruct (debug_throws b) |]; injection H as <- <- <-; exact O.
    + rewrite O in H. cbn in H. injection H as <- <- <-; exact O.
  - destruct server; unfold server_remaining, client_remaining in H.
    + destruct flt; [destruct (debug_throws b)|]; injection H as <- <- <-; exact O.
    + rewrite O in H. cbn in H. injection H as <- <- <-; exact O.
  - destruct server; unfold server_write, client_write in H.
    + destruct r; [| |destruct (debug_throws b)]; injection H as <- <- <-; auto.
    + rewrite O in H. cbn in H. injection H as <- <- <-; exact O.
Qed.
Lemma lives_closed server b is : forall s c s' c' tr, lives server b is s c = (s', c', tr) -> k_open s = false -> k_open s' = false.
Proof.
  induction is as [|i is IH]; cbn [lives]; intros s c s' c' tr.
  - intros H; injection H as <- <- <-. auto.
  - destruct (life server b i s c) as [[s1 c1] a] eqn:L. destruct (lives server b is s1 c1) as [[s2 c2] tr'] eqn:E.
    intros H O; injection H as <- <- <-. apply (IH _ _ _ _ _ E). apply (life_closed _ _ _ _ _ _ _ _ L O).
Qed.

(** * Ports in zeroed storage *)
Definition port_ready (s : port) : Prop :=
  p_open s <> None /\ p_wait s <> None /\ p_fd s <> None.
Definition ports_ready (p : proc) : Prop := forall id o, get p id = Some o -> match o with Port s => port_ready s | _ => False end.
Definition zeroed_port (e : event) : Prop :=
  match e with
  | NewPort _ st | MakePort _ st _ => st = Zeroed
  | OpenPort _ _ _ | QueryPort _ _ | Close _ _ | Destroy _ | HangUp _ _ | OtherOpen | OtherClose _ => True
  | _ => False
  end.
Lemma port_close_ready id p s : port_ready s -> exists q s', port_close id p s = Ok (q, s') /\ port_ready s'.
Proof.
  intros (A & B & C). unfold port_close. destruct (p_open s) as [[]|] eqn:O; [| |congruence].
  - destruct (p_fd s) as [fd|] eqn:F; [|congruence]. eexists _, _. split; [reflexivity|]. repeat split; cbn; congruence.
  - eexists _, _. split; [reflexivity|]. repeat split; congruence.
Qed.
Lemma port_query_ready th id p s : port_ready s -> exists q s' r, port_query th id p s = Ok (q, s', r) /\ port_ready s'.
Proof.
  intros R. pose proof R as (A & B & C). unfold port_query. destruct (p_open s) as [[]|] eqn:O; [| |congruence].
  - destruct th; [eexists _, _, _; split; [reflexivity | exact R]|].
    destruct (port_close_ready id p s R) as (q & s' & E & R'). rewrite E. cbn. eexists _, _, _. split; [reflexivity | exact R'].
  - eexists _, _, _. split; [reflexivity | exact R].
Qed.
Lemma port_open_ready b os th id p s : port_ready s -> exists q s' r, port_open b os th id p s = Ok (q, s', r) /\ port_ready s'.
Proof.
  intros R. unfold port_open. destruct os.
  { destruct (throws b); eexists _, _, _; (split; [reflexivity|]); [exact R | destruct R as (A & B & C); repeat split; cbn; congruence]. }
  all: destruct (port_query_ready th id p s R) as (p1 & s1 & iso & E & R1); rewrite E; cbn [bind].
  all: assert (X : exists p2 s2, (if iso then port_close id p1 s1 else Ok (p1, s1)) = Ok (p2, s2) /\ port_ready s2)
    by (destruct iso; [apply port_close_ready, R1 | eauto]).
  all: destruct X as (p2 & s2 & E2 & R2); rewrite E2; cbn [bind]; destruct R2 as (A & B & C).
  1-4: eexists _, _, _; split; [reflexivity | repeat split; cbn; congruence].
  unfold sys_open. destruct (p_wait s2) as [w|] eqn:W; [|congruence].
  eexists _, _, _; split; [reflexivity | repeat split; cbn; congruence].
Qed.
Lemma ready_put id s q p : ports_ready p -> same_objs p q -> port_ready s -> ports_ready (put id (Port s) q).
Proof.
  intros P [A B] R i o. rewrite get_put. destruct (i =? id); [intros [= <-]; exact R|]. unfold get. rewrite A. apply P.
Qed.
Lemma ready_gone id q p : ports_ready p -> same_objs p q -> ports_ready (gone id q).
Proof. intros P [A B] i o. rewrite get_gone. destruct (i =? id); [discriminate|]. unfold get. rewrite A. apply P. Qed.
Lemma ready_same q p : ports_ready p -> same_objs p q -> ports_ready q.
Proof. intros P [A B] i o. unfold get. rewrite A. apply P. Qed.
Lemma step_ready b e p : ports_ready p -> zeroed_port e -> exists q, step b e p = Ok q /\ ports_ready q.
Proof.
  intros P Ze. destruct e as [i st|i st|i st|i|i st os|i st os|i st os|i os|i os|i os|i os th|i os|i ok|i th|i w|i ok|i| |fd]; cbn in Ze; try contradiction; cbn [step].
  - eexists. split; [reflexivity|]. subst st. destruct (is_new i p); [|exact P].
    apply (ready_put i _ _ (created i p)); [exact P | apply same_refl | repeat split; cbn; discriminate].
  - subst st. destruct (is_new i p); [|eauto]. unfold constructed.
    destruct (port_open_ready b os true i (created i p) (opening_port Zeroed)) as (q & s' & r & E & R).
    { repeat split; cbn; discriminate. }
    rewrite E. cbn. pose proof (same_port_open _ _ _ _ _ _ _ _ _ E) as Sm. eexists. split; [reflexivity|].
    destruct (r || _); [apply (ready_put i s' q (created i p) P Sm R) | apply (ready_same q (created i p) P Sm)].
  - destruct (get p i) as [o|] eqn:G; [|eauto]. pose proof (P i o G) as R. destruct o as [c|s|s|f]; try contradiction.
    destruct (port_open_ready b os th i p s R) as (q & s' & r & E & R'). unfold updated. rewrite E. cbn. eexists. split; [reflexivity|].
    apply (ready_put i s' q p P (same_port_open _ _ _ _ _ _ _ _ _ E) R').
  - destruct (get p i) as [o|] eqn:G; [|eauto]. pose proof (P i o G) as R. destruct o as [c|s|s|f]; try contradiction.
    destruct (port_query_ready th i p s R) as (q & s' & r & E & R'). unfold updated. rewrite E. cbn. eexists. split; [reflexivity|].
    apply (ready_put i s' q p P (same_port_query _ _ _ _ _ _ _ E) R').
  - destruct (get p i) as [o|] eqn:G; [|eauto]. pose proof (P i o G) as R. destruct o as [c|s|s|f]; try contradiction. eauto.
  - destruct (get p i) as [o|] eqn:G; [|eauto]. pose proof (P i o G) as R. destruct o as [c|s|s|f]; try contradiction.
    destruct (port_close_ready i p s R) as (q & s' & E & R'). unfold updated2. rewrite E. cbn. eexists. split; [reflexivity|].
    apply (ready_put i s' q p P (same_port_close _ _ _ _ _ E) R').
  - destruct (get p i) as [o|] eqn:G; [|eauto]. pose proof (P i o G) as R. destruct o as [c|s|s|f]; try contradiction.
    destruct (port_close_ready i p s R) as (q & s' & E & R'). unfold destroyed. rewrite E. cbn. eexists. split; [reflexivity|].
    apply (ready_gone i q p P (same_port_close _ _ _ _ _ E)).
  - eexists. split; [reflexivity|]. apply (ready_same _ p P). split; reflexivity.
  - eexists. split; [reflexivity|]. destruct (owner (tab p) fd) as [[]|]; try exact P.
Qed.
Lemma run_ready b es : Forall zeroed_port es -> forall p, ports_ready p -> exists q, run b es p = Ok q.
Proof.
  induction 1 as [|e es H _ IH]; intros p P; cbn; [eauto|].
  destruct (step_ready b e p P H) as (q & E & Q). rewrite E. apply (IH q Q).
Qed.

(** * A growing stack of lost descriptors *)
Fixpoint stack (k : nat) : table := match k with O => [] | S n => (Z.of_nat n, 1) :: stack n end.
Lemma stack_used k j : 0 <= j -> used (stack k) j = (j <? Z.of_nat k).
Proof.
  intros H. induction k as [|k IH]; cbn [stack].
  - cbn. destruct (j <? 0) eqn:E; [lia | reflexivity].
  - unfold used in *. cbn [existsb fst]. rewrite IH. destruct (Z.of_nat k =? j) eqn:E, (j <? Z.of_nat k) eqn:F, (j <? Z.of_nat (S k)) eqn:G; cbn; try reflexivity; lia.
Qed.
Lemma stack_length k : length (stack k) = k.
Proof. induction k as [|k IH]; cbn; [reflexivity | now rewrite IH]. Qed.
Lemma find_map_seq (f : Z -> bool) n : forall a k, (a <= k < a + n)%nat -> f (Z.of_nat k) = true ->
  (forall j, (a <= j < k)%nat -> f (Z.of_nat j) = false) -> find f (map Z.of_nat (seq a n)) = Some (Z.of_nat k).
Proof.
  induction n as [|n IH]; intros a k R T F; [lia|]. cbn [seq map find].
  destruct (Nat.eq_dec a k) as [->|N]; [now rewrite T|].
  rewrite (F a) by lia. apply IH; [lia | exact T | intros j Hj; apply F; lia].
Qed.
Lemma lowest_stack k : lowest (stack k) = Z.of_nat k.
Proof.
  unfold lowest. rewrite stack_length. rewrite (find_map_seq _ (S k) 0 k); [reflexivity | lia | |].
  - rewrite stack_used by lia. destruct (Z.of_nat k <? Z.of_nat k) eqn:E; [lia | reflexivity].
  - intros j Hj. rewrite stack_used by lia. destruct (Z.of_nat j <? Z.of_nat k) eqn:E; [reflexivity | lia].
Qed.
Lemma stack_count k : length (filter (fun q => snd q =? 1) (stack k)) = k.
Proof. induction k as [|k IH]; cbn; [reflexivity | now rewrite IH]. Qed.
Lemma run_app b es fs : forall p, run b (es ++ fs) p = bind (run b es p) (run b fs).
Proof. induction es as [|e es IH]; intros p; cbn; [reflexivity|]. destruct (step b e p); cbn; [apply IH | reflexivity | reflexivity]. Qed.
Lemma run_repeat b e (st : nat -> proc) : (forall k, step b e (st k) = Ok (st (S k))) ->
  forall n k, run b (repeat e n) (st k) = Ok (st (k + n)%nat).
Proof.
  intros H. induction n as [|n IH]; intros k; cbn [repeat run]; [now rewrite Nat.add_0_r|].
  rewrite H. cbn [bind]. rewrite IH. do 2 f_equal. lia.
Qed.
(** Stack after removing its bottom or top descriptor. *)
Lemma stack_bottom k : length (filter (fun q => snd q =? 1) (filter (fun q => negb (fst q =? 0)) (stack (S k)))) = k.
Proof.
  induction k as [|k IH]; [reflexivity|]. cbn [stack] in *. cbn [filter fst snd] in *.
  destruct (Z.of_nat (S k) =? 0) eqn:E; [lia|]. cbn [negb filter snd]. rewrite Z.eqb_refl. cbn [length]. f_equal. exact IH.
Qed.
Lemma stack_top k : filter (fun q => negb (fst q =? Z.of_nat k)) (stack (S k)) = stack k.
Proof.
  cbn [stack filter fst]. rewrite Z.eqb_refl. cbn [negb].
  assert (H : forall m, (m <= k)%nat -> filter (fun q => negb (fst q =? Z.of_nat k)) (stack m) = stack m).
  { induction m as [|m IH]; intros L; [reflexivity|]. cbn [stack filter fst]. destruct (Z.of_nat m =? Z.of_nat k) eqn:E; [lia|].
    cbn [negb]. f_equal. apply IH. lia. }
  apply (H k). lia.
Qed.

Definition listening (k : nat) : proc :=
  mkProc (stack (S k)) [(1, Server (mkServer (Some 0) (Some (Z.of_nat k)) true))] [1] [].
Lemma listen_step b k : step b (Listen 1 true) (listening k) = Ok (listening (S k)).
Proof.
  unfold step, listening. cbn [get objs find fst snd Z.eqb Pos.eqb]. unfold updated, server_listen. cbn [s_fd tab].
  rewrite stack_used by lia. destruct (0 <? Z.of_nat (S k)) eqn:E; [|lia]. cbn [andb bind]. unfold sys_open. cbn [tab objs ids closes].
  rewrite lowest_stack. reflexivity.
Qed.
Definition failing (k : nat) : proc :=
  mkProc (stack (S k)) [(1, Port (mkPort (Some (Z.of_nat k)) (Some false) (Some 0)))] [1] [].
Lemma fail_step b os th k : late os = true -> step b (OpenPort 1 os th) (failing k) = Ok (failing (S k)).
Proof.
  intros L. unfold step, failing. cbn [get objs find fst snd Z.eqb Pos.eqb]. unfold updated, port_open.
  destruct os; try discriminate L; unfold port_query; cbn [p_open bind]; unfold sys_open; cbn [tab objs ids closes]; rewrite lowest_stack; reflexivity.
Qed.
Definition reopening (k : nat) : proc := mkProc (stack (S k)) [(1, File (mkFile (Some (Z.of_nat k, true))))] [1] [].
Lemma reopen_step b k : step b (OpenFile 1 FOpened) (reopening k) = Ok (reopening (S k)).
Proof.
  unfold step, reopening. cbn [get objs find fst snd Z.eqb Pos.eqb]. unfold updated, file_open, sys_open. cbn [tab objs ids closes].
  rewrite lowest_stack. reflexivity.
Qed.
