(** Model of ecl_sigslots: SigSlot, Topic, SigSlotsManager, Signal and Slot.
    Files: /repo/ecl_sigslots/include/ecl/sigslots/{sigslot,topic,manager,signal,slot}.hpp.
    One data type (one manager) at a time, one thread.  A sigslot is named by its address (any Z); std::set and
    std::map are duplicate free lists kept in order (addresses, names).  Callbacks given by the user do not use
    signals or slots themselves.  Handle and processing counts are below 2^32. *)
From Verif Require Import Base.
Open Scope Z_scope.

Definition str := list Z.
Definition str_eqb (a b : str) : bool := if list_eq_dec Z.eq_dec a b then true else false.
(** std::string::operator<. *)
Fixpoint str_lt (a b : str) : bool :=
  match a, b with
  | _, [] => false
  | [], _ :: _ => true
  | x :: a', y :: b' => (x <? y) || ((x =? y) && str_lt a' b')
  end.
(** Sorted position in a std::set / std::map. *)
Fixpoint ins {A} (lt : A -> A -> bool) (x : A) (l : list A) : list A :=
  match l with [] => [x] | y :: r => if lt x y then x :: l else y :: ins lt x r end.
(** std::set<SigSlot*>::insert and erase(find). *)
Definition mem (x : Z) (l : list Z) : bool := existsb (Z.eqb x) l.
Definition zadd (x : Z) (l : list Z) : list Z := if mem x l then l else ins Z.ltb x l.
Definition zdel (x : Z) (l : list Z) : list Z := filter (fun y => negb (y =? x)) l.
(** std::set<std::string>. *)
Definition smem (x : str) (l : list str) : bool := existsb (str_eqb x) l.

(** Topic, topic.hpp:45-122; [tid]: the identity of the node, which publication pointers refer to. *)
Record topic := mkTopic { tid : Z; tpub : list Z; tsub : list Z }.
(** What processing does: emit on the sigslot itself (default constructor, sigslot.hpp:61-63, 224-226), or call
    the user's function (69-82, 232-245). *)
Inductive kind := Relay | Call (k : Z).
(** SigSlot, sigslot.hpp:192-199.  A publication is a topic name with the pointer to that topic's subscribers. *)
Record ss := mkSS { skind : kind; subs : list str; pubs : list (str * Z); handles : Z; cnt : Z; locked : bool }.
(** [vars]: the Signal and Slot objects with their sigslot pointers; [next]: node identities handed out so far. *)
Record world := mkW { heap : Z -> option ss; topics : list (str * topic); next : Z; vars : list (Z * Z) }.
Definition w0 : world := mkW (fun _ => None) [] 0 [].

Definition hput (h : Z -> option ss) (a : Z) (s : option ss) : Z -> option ss := fun x => if x =? a then s else h x.
Definition set_heap (w : world) (a : Z) (s : option ss) : world := mkW (hput (heap w) a s) (topics w) (next w) (vars w).
Definition set_topics (w : world) (t : list (str * topic)) (n : Z) : world := mkW (heap w) t n (vars w).
Definition set_vars (w : world) (v : list (Z * Z)) : world := mkW (heap w) (topics w) (next w) v.
(** std::map::find. *)
Fixpoint tfind (n : str) (l : list (str * topic)) : option topic :=
  match l with [] => None | (m, t) :: r => if str_eqb n m then Some t else tfind n r end.
Fixpoint tput (n : str) (t : topic) (l : list (str * topic)) : list (str * topic) :=
  match l with [] => [] | (m, u) :: r => if str_eqb n m then (m, t) :: r else (m, u) :: tput n t r end.
Definition tdel (n : str) (l : list (str * topic)) : list (str * topic) := filter (fun p => negb (str_eqb n (fst p))) l.
(** Following a publication pointer: the node, if it still exists. *)
Fixpoint tnode (i : Z) (l : list (str * topic)) : option topic :=
  match l with [] => None | (_, t) :: r => if tid t =? i then Some t else tnode i r end.

(** topics().insert(...), manager.hpp:88, 107: the topic of that name, new if necessary. *)
Definition topic_get (w : world) (n : str) : world * topic :=
  match tfind n (topics w) with
  | Some t => (w, t)
  | None => let t := mkTopic (next w) [] [] in
            (set_topics w (ins (fun p q => str_lt (fst p) (fst q)) (n, t) (topics w)) (next w + 1), t)
  end.
(** SigSlotsManager::connectSignal, manager.hpp:82-92; connectSlot, 101-110; Topic::add*, topic.hpp:68-77. *)
Definition man_signal (w : world) (n : str) (a : Z) : world * Z :=
  let '(w, t) := topic_get w n in (set_topics w (tput n (mkTopic (tid t) (zadd a (tpub t)) (tsub t)) (topics w)) (next w), tid t).
Definition man_slot (w : world) (n : str) (a : Z) : world :=
  let '(w, t) := topic_get w n in set_topics w (tput n (mkTopic (tid t) (tpub t) (zadd a (tsub t))) (topics w)) (next w).
(** SigSlotsManager::disconnect, manager.hpp:120-128, Topic::disconnect and empty, topic.hpp:86-104.
    The end iterator is dereferenced when the topic does not exist. *)
Definition man_disc (w : world) (n : str) (a : Z) : res world :=
  match tfind n (topics w) with
  | None => UB
  | Some t =>
    let t := mkTopic (tid t) (zdel a (tpub t)) (zdel a (tsub t)) in
    Ok (set_topics w (match tpub t, tsub t with [], [] => tdel n (topics w) | _, _ => tput n t (topics w) end) (next w))
  end.
Fixpoint man_discs (w : world) (l : list str) (a : Z) : res world :=
  match l with [] => Ok w | n :: r => w' <- man_disc w n a ;; man_discs w' r a end.

Definition set_subs (s : ss) (l : list str) : ss := mkSS (skind s) l (pubs s) (handles s) (cnt s) (locked s).
Definition set_pubs (s : ss) (l : list (str * Z)) : ss := mkSS (skind s) (subs s) l (handles s) (cnt s) (locked s).
Definition set_handles (s : ss) (n : Z) : ss := mkSS (skind s) (subs s) (pubs s) n (cnt s) (locked s).
Definition set_lock (s : ss) (n : Z) (l : bool) : ss := mkSS (skind s) (subs s) (pubs s) (handles s) n l.
(** Dereferencing a sigslot pointer. *)
Definition deref (w : world) (a : Z) : res ss := match heap w a with Some s => Ok s | None => UB end.

(** SigSlot::connectSignal, sigslot.hpp:138-148, 302-312. *)
Definition sig_connect (w : world) (a : Z) (n : str) : res world :=
  let '(w, i) := man_signal w n a in
  s <- deref w a ;;
  Ok (if existsb (fun p => str_eqb n (fst p)) (pubs s) then w
      else set_heap w a (Some (set_pubs s (ins (fun p q => str_lt (fst p) (fst q)) (n, i) (pubs s))))).
(** SigSlot::connectSlot, sigslot.hpp:156-163, 316-322. *)
Definition slot_connect (w : world) (a : Z) (n : str) : res world :=
  s <- deref w a ;;
  if smem n (subs s) then Ok w
  else Ok (man_slot (set_heap w a (Some (set_subs s (ins str_lt n (subs s))))) n a).
(** SigSlot::disconnect(), sigslot.hpp:177-188, 339-350. *)
Definition disconnect (w : world) (a : Z) : res world :=
  s <- deref w a ;;
  w1 <- man_discs w (subs s) a ;;
  w2 <- man_discs w1 (map fst (pubs s)) a ;;
  Ok (set_heap w2 a (Some (set_pubs (set_subs s []) []))).
(** SigSlot::disconnect(topic), sigslot.hpp:330-333 (SigSlot<Void>; for other types, 167-171, it cannot be
    instantiated: it passes a SigSlot<Data>* to SigSlotsManager<Void>). *)
Definition disconnect_topic (w : world) (a : Z) (n : str) : res world :=
  s <- deref w a ;;
  man_disc (set_heap w a (Some (set_pubs s (filter (fun p => negb (str_eqb n (fst p))) (pubs s))))) n a.
(** ~SigSlot, sigslot.hpp:91-95, 254-258: waits for its mutex (forever, if it is processing in this thread). *)
Definition ss_delete (w : world) (a : Z) : res world :=
  w1 <- disconnect w a ;; s <- deref w1 a ;;
  if locked s then Throw BlockingError else Ok (set_heap w1 a None).

(** How a user function was reached: the hops (topic, receiver) that led to it. *)
Definition route := list (str * Z).
(** An invocation with the data passed to it. *)
Definition call := (route * Z)%type.
(** Runs a function over the elements of a set or map, in order. *)
Fixpoint each {A} (f : world -> A -> res (world * list call)) (w : world) (l : list A) : res (world * list call) :=
  match l with
  | [] => Ok (w, [])
  | x :: r => p <- f w x ;; q <- each f (fst p) r ;; Ok (fst q, snd p ++ snd q)
  end.
(** SigSlot::process, sigslot.hpp:123-130, 286-294, given what emit does: trylock (its result is ignored), count,
    call, count down, unlock at 0. *)
Definition process (emit : world -> Z -> Z -> route -> res (world * list call)) (w : world) (a d : Z) (path : route) : res (world * list call) :=
  s <- deref w a ;;
  let w1 := set_heap w a (Some (set_lock s (cnt s + 1) true)) in
  r <- (match skind s with Call _ => Ok (w1, [(path, d)]) | Relay => emit w1 a d path end) ;;
  s' <- deref (fst r) a ;;
  Ok (set_heap (fst r) a (Some (set_lock s' (cnt s' - 1) (if cnt s' - 1 =? 0 then false else locked s'))), snd r).
(** SigSlot::emit, sigslot.hpp:106-116, 269-279.  [depth]: how many nested emits the stack can hold; beyond it
    the behaviour is undefined.  [d]: the data (nothing for SigSlot<Void>).  Result: the invocations, in order. *)
Fixpoint emit (depth : nat) (w : world) (a d : Z) (path : route) : res (world * list call) :=
  match depth with
  | O => UB
  | S dep =>
    s <- deref w a ;;
    each (fun w p => match tnode (snd p) (topics w) with
                     | None => UB
                     | Some t => each (fun w x => process (emit dep) w x d (path ++ [(fst p, x)])) w (tsub t)
                     end) w (pubs s)
  end.

(** Signal and Slot objects: the variable must exist (else undefined). *)
Fixpoint vfind (v : Z) (l : list (Z * Z)) : option Z := match l with [] => None | (u, a) :: r => if v =? u then Some a else vfind v r end.
Definition vdel (v : Z) (l : list (Z * Z)) : list (Z * Z) := filter (fun p => negb (fst p =? v)) l.
Definition ptr (w : world) (v : Z) : res Z := match vfind v (vars w) with Some a => Ok a | None => UB end.
(** Signal(), signal.hpp:55-57, 164-166; Slot(f), slot.hpp:58-60, 86-89, 193-195, 218-221; [a]: where the
    allocator puts the sigslot. *)
Definition obj_new (w : world) (v a : Z) (k : kind) : world :=
  set_vars (set_heap w a (Some (mkSS k [] [] 1 0 false))) ((v, a) :: vars w).
(** Copy constructors, signal.hpp:77-80, 185-188, slot.hpp:119-122, 248-251. *)
Definition obj_copy (w : world) (v u : Z) : res world :=
  a <- ptr w v ;; s <- deref w a ;;
  Ok (set_vars (set_heap w a (Some (set_handles s (handles s + 1)))) ((u, a) :: vars w)).
(** operator=, signal.hpp:99-101, 193-195, slot.hpp:140-142, 268-270: [u = v]. *)
Definition obj_assign (w : world) (v u : Z) : res world :=
  a <- ptr w v ;; _ <- ptr w u ;;
  Ok (set_vars w (map (fun p => if fst p =? u then (u, a) else p) (vars w))).
(** Destructors, signal.hpp:89-94, 204-209, slot.hpp:131-136, 259-264. *)
Definition obj_destroy (w : world) (v : Z) : res world :=
  a <- ptr w v ;; s <- deref w a ;;
  let w1 := set_vars (set_heap w a (Some (set_handles s (handles s - 1)))) (vdel v (vars w)) in
  if handles s - 1 =? 0 then ss_delete w1 a else Ok w1.

(** What a program does with its signals and slots. *)
Inductive op :=
| ONew (v a : Z) (k : kind)          (* Signal v / Slot v(f); the constructors with a topic connect next *)
| OSignal (v : Z) (n : str)          (* signal.connect(topic), signal.hpp:111, 218 *)
| OSlot (v : Z) (n : str)            (* signal.connectAsSlot, 120, 227; slot.connect, slot.hpp:158, 279 *)
| ODisc (v : Z)                      (* disconnect(), signal.hpp:126, 233, slot.hpp:164, 285 *)
| OCopy (v u : Z) | OAssign (v u : Z) | ODestroy (v : Z)
| OEmit (v d : Z)                    (* signal.emit(d), 135, 240 *).
Definition step (depth : nat) (w : world) (o : op) : res (world * list (list call)) :=
  match o with
  | ONew v a k => Ok (obj_new w v a k, [])
  | OSignal v n => a <- ptr w v ;; w' <- sig_connect w a n ;; Ok (w', [])
  | OSlot v n => a <- ptr w v ;; w' <- slot_connect w a n ;; Ok (w', [])
  | ODisc v => a <- ptr w v ;; w' <- disconnect w a ;; Ok (w', [])
  | OCopy v u => w' <- obj_copy w v u ;; Ok (w', [])
  | OAssign v u => w' <- obj_assign w v u ;; Ok (w', [])
  | ODestroy v => w' <- obj_destroy w v ;; Ok (w', [])
  | OEmit v d => a <- ptr w v ;; r <- emit depth w a d [] ;; Ok (fst r, [snd r])
  end.
Fixpoint run (depth : nat) (w : world) (l : list op) : res (world * list (list call)) :=
  match l with [] => Ok (w, []) | o :: r => p <- step depth w o ;; q <- run depth (fst p) r ;; Ok (fst q, snd p ++ snd q) end.
