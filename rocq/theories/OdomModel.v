(** Accessors of odometry vectors: ecl_geometry/src/lib/odometry_helper.cpp:211-367 and the helpers for pointers, 375-419.
    Position2D, Pose2D, Twist2D and Odom2D are vectors of 2, 3, 3 and 6 floats (odometry_typedefs.hpp:38-101); a float is any element of a type [A].
    Element k of a vector that has none is outside it (an Eigen assertion or an access out of bounds: UB). *)
From Verif Require Import Base.
Open Scope Z_scope.

(** v(k) and v(k) = value. *)
Definition at_ {A} (v : list A) (k : Z) : res A := match zget v k with Some a => Ok a | None => UB end.
Definition put {A} (v : list A) (k : Z) (a : A) : res (list A) := match zget v k with Some _ => Ok (zset v k a) | None => UB end.
(** head<n>() and tail<n>(), of vectors that have n elements. *)
Definition head_ {A} (n : nat) (v : list A) : list A := firstn n v.
Definition tail_ {A} (n : nat) (v : list A) : list A := skipn (length v - n) v.

(** Setters of an odometry, odometry_helper.cpp:211-224, 241-254. *)
Definition odom_setVelocityX {A} (o : list A) (a : A) := put o 3 a.
Definition odom_setVelocityY {A} (o : list A) (a : A) := put o 4 a.
Definition odom_setVelocityAngular {A} (o : list A) (a : A) := put o 5 a.
Definition odom_setX {A} (o : list A) (a : A) := put o 0 a.
Definition odom_setY {A} (o : list A) (a : A) := put o 1 a.
Definition odom_setYaw {A} (o : list A) (a : A) := put o 2 a.
(** Of a twist, odometry_helper.cpp:226-239, a pose, 256-269, a position, 271-279. *)
Definition twist_setVelocityX {A} (t : list A) (a : A) := put t 0 a.
Definition twist_setVelocityY {A} (t : list A) (a : A) := put t 1 a.
Definition twist_setVelocityAngular {A} (t : list A) (a : A) := put t 2 a.
Definition pose_setX {A} (p : list A) (a : A) := put p 0 a.
Definition pose_setY {A} (p : list A) (a : A) := put p 1 a.
Definition pose_setYaw {A} (p : list A) (a : A) := put p 2 a.
Definition position_setX {A} (p : list A) (a : A) := put p 0 a.
Definition position_setY {A} (p : list A) (a : A) := put p 1 a.
(** getPose, odometry_helper.cpp:329-332, getTwist, 334-337, getPosition, 324-327, 354-357. *)
Definition getPose {A} (o : list A) : list A := head_ 3 o.
Definition getTwist {A} (o : list A) : list A := tail_ 3 o.
Definition pose_getPosition {A} (p : list A) : list A := head_ 2 p.
Definition odom_getPosition {A} (o : list A) : list A := pose_getPosition (getPose o).
(** Getters of a position, odometry_helper.cpp:359-367, a pose, 339-352, a twist, 296-309, an odometry, 281-294, 311-322. *)
Definition position_getX {A} (p : list A) := at_ p 0.
Definition position_getY {A} (p : list A) := at_ p 1.
Definition pose_getX {A} (p : list A) := position_getX (pose_getPosition p).
Definition pose_getY {A} (p : list A) := position_getY (pose_getPosition p).
Definition pose_getYaw {A} (p : list A) := at_ p 2.
Definition twist_getVelocityX {A} (t : list A) := at_ t 0.
Definition twist_getVelocityY {A} (t : list A) := at_ t 1.
Definition twist_getVelocityAngular {A} (t : list A) := at_ t 2.
Definition odom_getVelocityX {A} (o : list A) := twist_getVelocityX (getTwist o).
Definition odom_getVelocityY {A} (o : list A) := twist_getVelocityY (getTwist o).
Definition odom_getVelocityAngular {A} (o : list A) := twist_getVelocityAngular (getTwist o).
Definition odom_getX {A} (o : list A) := pose_getX (getPose o).
Definition odom_getY {A} (o : list A) := pose_getY (getPose o).
Definition odom_getYaw {A} (o : list A) := pose_getYaw (getPose o).

(** ** Shared pointers to trajectories (None: null), odometry_helper.cpp:375-419; [A] is here the type of columns. *)
(** size, odometry_helper.cpp:68-76, 385-393: dereferences. *)
Definition ptr_size {A} (p : option (list A)) : res Z := match p with Some t => Ok (Zlen t) | None => UB end.
(** empty, odometry_helper.cpp:375-383. *)
Definition ptr_empty {A} (p : option (list A)) : res bool :=
  match p with None => Ok true | Some t => n <- ptr_size (Some t) ;; Ok (n =? 0) end.
(** The loop of vectorToTrajectoryPtr, odometry_helper.cpp:400-403, 413-416. *)
Fixpoint fill_cols {A} (t : list A) (i : Z) (v : list A) : res (list A) :=
  match v with [] => Ok t | c :: tl => t' <- put t i c ;; fill_cols t' (i + 1) tl end.
(** odometry_helper.cpp:395-419: a matrix of the right size with arbitrary contents is filled column by column. *)
Definition vector_to_ptr {A} (junk : nat -> A) (v : list A) : res (option (list A)) :=
  t <- fill_cols (map junk (seq 0 (length v))) 0 v ;; Ok (Some t).
