(** Properties of the accessors of odometry (C254). *)
From Verif Require Import Base OdomModel.
Open Scope Z_scope.

(** The six coordinates, their setters and getters. *)
Inductive coord := CX | CY | CYaw | CVX | CVY | CVA.
Definition set_coord {A} (c : coord) (o : list A) (a : A) : res (list A) :=
  match c with CX => odom_setX o a | CY => odom_setY o a | CYaw => odom_setYaw o a | CVX => odom_setVelocityX o a | CVY => odom_setVelocityY o a | CVA => odom_setVelocityAngular o a end.
Definition get_coord {A} (c : coord) (o : list A) : res A :=
  match c with CX => odom_getX o | CY => odom_getY o | CYaw => odom_getYaw o | CVX => odom_getVelocityX o | CVY => odom_getVelocityY o | CVA => odom_getVelocityAngular o end.
Fixpoint set_all {A} (l : list (coord * A)) (o : list A) : res (list A) := match l with [] => Ok o | (c, a) :: tl => o' <- set_coord c o a ;; set_all tl o' end.
(** The value last given to a coordinate. *)
Definition coord_eqb (a b : coord) : bool := match a, b with CX, CX | CY, CY | CYaw, CYaw | CVX, CVX | CVY, CVY | CVA, CVA => true | _, _ => false end.
Fixpoint last_set {A} (c : coord) (start : A) (l : list (coord * A)) : A := match l with [] => start | (d, a) :: tl => last_set c (if coord_eqb c d then a else start) tl end.

(** After any number of sets every coordinate has the value last given to it. *)
Theorem C254_history : forall (A : Type) (x y h vx vy w : A) (l : list (coord * A)),
  exists o, set_all l [x; y; h; vx; vy; w] = Ok o /\
    get_coord CX o = Ok (last_set CX x l) /\ get_coord CY o = Ok (last_set CY y l) /\ get_coord CYaw o = Ok (last_set CYaw h l) /\
    get_coord CVX o = Ok (last_set CVX vx l) /\ get_coord CVY o = Ok (last_set CVY vy l) /\ get_coord CVA o = Ok (last_set CVA w l).
Proof.
  intros A x y h vx vy w l. revert x y h vx vy w. induction l as [|[[] a] l IH]; intros x y h vx vy w; cbn [set_all last_set coord_eqb].
  { exists [x; y; h; vx; vy; w]. repeat split. }
  all: match goal with |- exists o, (r <- ?s ;; _) = _ /\ _ => let v := eval cbv in s in change s with v end; cbn [bind]; apply IH.
Qed.
Print Assumptions C254_history.

(** Pose, twist and position are the parts the getters read. *)
Theorem C254_parts : forall (A : Type) (x y h vx vy w : A) (o := [x; y; h; vx; vy; w]),
  getPose o ++ getTwist o = o /\ odom_getPosition o = [x; y] /\ pose_getPosition (getPose o) = [x; y] /\ getPose o = [x; y; h] /\ getTwist o = [vx; vy; w] /\
  pose_getX (getPose o) = Ok x /\ pose_getY (getPose o) = Ok y /\ pose_getYaw (getPose o) = Ok h /\ position_getX (odom_getPosition o) = Ok x /\ position_getY (odom_getPosition o) = Ok y /\
  twist_getVelocityX (getTwist o) = Ok vx /\ twist_getVelocityY (getTwist o) = Ok vy /\ twist_getVelocityAngular (getTwist o) = Ok w.
Proof. intros. repeat split. Qed.
Print Assumptions C254_parts.
(** Setting a coordinate of a part sets it in the whole. *)
Theorem C254_set_parts : forall (A : Type) (x y h vx vy w a : A) (p := [x; y; h]) (t := [vx; vy; w]),
  (r <- pose_setX p a ;; Ok (r ++ t)) = odom_setX (p ++ t) a /\ (r <- pose_setY p a ;; Ok (r ++ t)) = odom_setY (p ++ t) a /\ (r <- pose_setYaw p a ;; Ok (r ++ t)) = odom_setYaw (p ++ t) a /\
  (r <- twist_setVelocityX t a ;; Ok (p ++ r)) = odom_setVelocityX (p ++ t) a /\ (r <- twist_setVelocityY t a ;; Ok (p ++ r)) = odom_setVelocityY (p ++ t) a /\
  (r <- twist_setVelocityAngular t a ;; Ok (p ++ r)) = odom_setVelocityAngular (p ++ t) a /\
  (r <- position_setX [x; y] a ;; Ok (r ++ [h])) = pose_setX p a /\ (r <- position_setY [x; y] a ;; Ok (r ++ [h])) = pose_setY p a.
Proof. intros. repeat split. Qed.
Print Assumptions C254_set_parts.
Example C254_example : set_all [(CVX, 7); (CX, 8); (CVX, 9)] [1; 2; 3; 4; 5; 6] = Ok [8; 2; 3; 9; 5; 6] /\ get_coord CVX [8; 2; 3; 9; 5; 6] = Ok 9.
Proof. split; reflexivity. Qed.

(** A pointer to a trajectory is empty if it is null or points at one without columns; asking a null one for its size is not defined. *)
Theorem C254_pointers : forall (A : Type) (p : option (list A)),
  (ptr_empty p = Ok true <-> p = None \/ p = Some []) /\ (exists b, ptr_empty p = Ok b) /\ (ptr_size p = UB <-> p = None) /\ (forall t, p = Some t -> ptr_size p = Ok (Zlen t)).
Proof.
  intros A [t|]; unfold ptr_empty, ptr_size; cbn [bind].
  - split; [|split; [eexists; reflexivity|split; [split; discriminate|intros u E; congruence]]].
    destruct (Z.eqb_spec (Zlen t) 0) as [E|E]; split; intros H; try congruence.
    + right. destruct t; [reflexivity|]. rewrite Zlen_cons in E. pose proof (Zlen_nonneg t). lia.
    + destruct H as [H|H]; [discriminate|]. injection H as ->. exfalso. apply E. reflexivity.
  - split; [split; [left; reflexivity|reflexivity]|]. split; [eexists; reflexivity|]. split; [split; reflexivity|discriminate].
Qed.
Print Assumptions C254_pointers.
(** A vector becomes a trajectory with its elements as columns, whatever the memory contained. *)
Lemma put_mid {A} (a b : list A) x y : put (a ++ x :: b) (Zlen a) y = Ok (a ++ y :: b).
Proof.
  assert (N : Z.to_nat (Zlen a) = length a) by (unfold Zlen; lia). unfold put, zget, zset. destruct (Zlen a <? 0) eqn:E; [pose proof (Zlen_nonneg a); lia|].
  rewrite N, nth_error_app2, Nat.sub_diag by lia. cbn [nth_error]. f_equal. clear. induction a as [|c a IH]; [reflexivity|]. cbn. rewrite IH. reflexivity.
Qed.
Theorem C254_vector : forall (A : Type) (junk : nat -> A) v, vector_to_ptr junk v = Ok (Some v).
Proof.
  intros A junk v. unfold vector_to_ptr. assert (G : forall (v pre junk' : list A), length junk' = length v -> fill_cols (pre ++ junk') (Zlen pre) v = Ok (pre ++ v)).
  { clear. induction v as [|c v IH]; intros pre [|x junk'] L; cbn in L; try lia; cbn [fill_cols]; [reflexivity|]. rewrite put_mid. cbn [bind].
    replace (pre ++ c :: junk') with ((pre ++ [c]) ++ junk') by (rewrite <- app_assoc; reflexivity). replace (Zlen pre + 1) with (Zlen (pre ++ [c])) by (rewrite Zlen_app; reflexivity).
    rewrite IH by lia. rewrite <- app_assoc. reflexivity. }
  pose proof (G v [] (map junk (seq 0 (length v))) ltac:(rewrite map_length, seq_length; reflexivity)) as H. cbn [app] in H. change (Zlen (@nil A)) with 0 in H. rewrite H. reflexivity.
Qed.
Print Assumptions C254_vector.
