(** Model of ecl_manipulators: waypoint.hpp (joint angles), trajectory.hpp, trajectory.cpp and ecl_geometry's
    spline_function.hpp. Doubles are real numbers (RBase); an array read outside its bounds is [FUB] (in a debug build Array's
    own check throws instead). Loops without a bound take a number of rounds; running out of it is not an outcome of the code
    and is reported apart. *)
From Verif Require Import RBase PolyModel SplineModel.
Open Scope R_scope.

(** * Waypoints *)

(** WayPoint<JointAngles>: duration, angle_positions, angle_rates, rates_configured, nominal_rates, waypoint.hpp:84-146 and
    the members. The accelerations and the name are not used by the interpolations and are left out. *)
Record waypoint := mk_wp { w_duration : R; w_angles : list R; w_rates : list R; w_rates_set : bool; w_nominal : list R }.
(** WayPoint(dimension), waypoint.hpp:120-129; redimension, :163-168 (it leaves the duration and the flag alone). *)
Definition wp_new (dim : nat) : waypoint := mk_wp 0 (repeat 0 dim) (repeat 0 dim) false (repeat 1 dim).
Definition wp_redimension (w : waypoint) (dim : nat) : waypoint :=
  mk_wp (w_duration w) (repeat 0 dim) (repeat 0 dim) (w_rates_set w) (repeat 0 dim).
(** duration(value): a Parameter. *)
Definition set_duration (w : waypoint) (d : R) : waypoint := mk_wp d (w_angles w) (w_rates w) (w_rates_set w) (w_nominal w).
(** operator==, waypoint.hpp:303-310: the loop runs over the left operand's size. *)
Fixpoint wp_equal_loop (a b : list R) : fres bool :=
  match a, b with
  | [], _ => FOk true
  | _ :: _, [] => FUB
  | x :: a', y :: b' => if Req_EM_T x y then wp_equal_loop a' b' else FOk false
  end.
Definition wp_equal (v w : waypoint) : fres bool := wp_equal_loop (w_angles v) (w_angles w).
(** operator!=, waypoint.hpp:321-328. *)
Definition wp_differ (v w : waypoint) : fres bool := b <-- wp_equal v w ;; FOk (negb b).
(** if (!w.rates_configured()) w.rates() = Constant(dimension, 0.0): trajectory.cpp:543-550. *)
Definition settle_rates (w : waypoint) : waypoint :=
  if w_rates_set w then w else mk_wp (w_duration w) (w_angles w) (map (fun _ => 0) (w_angles w)) true (w_nominal w).

(** * Access to the waypoints of a trajectory. The waypoints are a list, the maximum accelerations a list whose length is
    the dimension (trajectory.hpp:131). *)

(** validateWaypoints, trajectory.cpp:439-459. [n] is the unsigned number of segments: 4294967295 for an empty trajectory,
    for which n + 1 wraps back to 0 and, if no minimum is asked for, the loop reads elements that do not exist. *)
Fixpoint rates_positive (l : list R) : bool :=
  match l with [] => true | x :: l' => if Rle_dec x 0 then false else rates_positive l' end.
Fixpoint validate_loop (wps : list waypoint) : bool :=
  match wps with
  | w :: ((_ :: _) as tl) => if rates_positive (w_nominal w) then validate_loop tl else false
  | _ => true
  end.
Definition validate (min : Z) (wps : list waypoint) : fres bool :=
  if (Zlen wps <? min)%Z then FOk false
  else match wps with [] => FUB | _ => FOk (validate_loop wps) end.

(** The inner loop of initialiseWaypointDurations, trajectory.cpp:474-485. *)
Fixpoint joint_durations (dim : nat) (j : Z) (a b nom : list R) (max_duration : R) : fres R :=
  match dim with
  | O => FOk max_duration
  | S dim' =>
      x <-- rget a j ;; y <-- rget b j ;; r <-- rget nom j ;;
      let distance := Rabs (y - x) in
      m <-- (if Req_EM_T r 0 then FOk max_duration
             else d <-- fdiv distance r ;; FOk (if Rlt_dec max_duration d then d else max_duration)) ;;
      joint_durations dim' (j + 1)%Z a b nom m
  end.
(** initialiseWaypointDurations, trajectory.cpp:461-496: the waypoints as they are left, and the returned value. An empty
    trajectory has 4294967295 segments. *)
Fixpoint initialise_loop (dim : nat) (wps : list waypoint) : fres (list waypoint * bool) :=
  match wps with
  | [] => FUB
  | [w] => FOk ([w], true)
  | w :: ((v :: _) as tl) =>
      m <-- joint_durations dim 0 (w_angles w) (w_angles v) (w_nominal w) 0 ;;
      let w' := if Rlt_dec (w_duration w) m then set_duration w m else w in
      if Req_EM_T (w_duration w') 0 then FOk (w' :: tl, false)
      else r <-- initialise_loop dim tl ;; FOk (w' :: fst r, snd r)
  end.

(** * The functions a trajectory is made of *)

(** Function in SplineFunction<Function>: the three instances trajectory.cpp uses. *)
Inductive piece := PQuintic (p : list R) | PTension (s : tspline) | PLinear (s : lspline).
Definition piece_eval (debug : bool) (p : piece) (x : R) : fres R :=
  match p with PQuintic q => FOk (eval q x) | PTension s => ts_eval debug s x | PLinear s => ls_eval debug s x end.
Definition piece_deriv (debug : bool) (p : piece) (x : R) : fres R :=
  match p with PQuintic q => FOk (deriv_at q x) | PTension s => ts_deriv debug s x | PLinear s => ls_deriv debug s x end.
Definition piece_dderiv (debug : bool) (p : piece) (x : R) : fres R :=
  match p with PQuintic q => FOk (dderiv_at q x) | PTension s => ts_dderiv debug s x | PLinear s => ls_dderiv debug s x end.
(** GenericSplineFunction: time_domain and the function, spline_function.hpp:66, 93-95, 132-135. *)
Record sfun := mk_sfun { s_begin : R; s_end : R; s_piece : piece }.
(** operator(), derivative, dderivative, spline_function.hpp:104-129: the range is checked in debug builds only. *)
Definition sfun_at (how : bool -> piece -> R -> fres R) (debug : bool) (f : sfun) (x : R) : fres R :=
  if debug && negb ((if Rle_dec (s_begin f) x then true else false) && (if Rle_dec x (s_end f) then true else false))
  then FThrow OutOfRangeError else how debug (s_piece f) x.
(** The loop of trajectory.cpp:386-392: the first function whose domain ends at or after the time. *)
Fixpoint first_function (fs : list sfun) (time : R) : option sfun :=
  match fs with [] => None | f :: fs' => if Rle_dec time (s_end f) then Some f else first_function fs' time end.
(** Trajectory::operator(), derivative and dderivative for one joint, trajectory.cpp:379-433. Without functions element
    size()-1 does not exist. *)
Definition traj_at (how : bool -> piece -> R -> fres R) (debug : bool) (fs : list sfun) (time : R) : fres R :=
  match fs with
  | [] => FUB
  | f0 :: _ =>
      let lastf := last fs f0 in
      let t_f := s_end lastf in
      if debug && negb ((if Rle_dec 0 time then true else false) && (if Rle_dec time (t_f + / 10000) then true else false))
      then FThrow OutOfRangeError
      else match first_function fs time with
           | Some f => sfun_at how debug f time
           | None => sfun_at how debug lastf t_f
           end
  end.
(** With the joint's index. *)
Definition traj_joint (how : bool -> piece -> R -> fres R) (debug : bool) (fss : list (list sfun)) (joint : Z) (time : R) : fres R :=
  fs <-- aget fss joint ;; traj_at how debug fs time.

(** * Linear interpolation *)

Fixpoint fmap {A B} (f : A -> fres B) (l : list A) : fres (list B) :=
  match l with [] => FOk [] | a :: l' => b <-- f a ;; bs <-- fmap f l' ;; FOk (b :: bs) end.
Definition joints (dim : nat) : list Z := map Z.of_nat (seq 0 dim).

(** What generateLinearSplines reads of joint [j] at the first two waypoints (first angle, first rate, first nominal rate,
    second angle) and its maximum acceleration: trajectory.cpp:582-587, 603, 631-633. *)
Record ljoint := mk_lj { j_angle : R; j_rate : R; j_nominal : R; j_other : R; j_acc : R }.
Definition pre_joint (w v : waypoint) (acc : list R) (j : Z) : fres ljoint :=
  a <-- rget (w_angles w) j ;; r <-- rget (w_rates w) j ;; n <-- rget (w_nominal w) j ;; b <-- rget (w_angles v) j ;;
  m <-- rget acc j ;; FOk (mk_lj a r n b m).
(** At the last two: last angle, last rate, the nominal rate of the one before, its angle, :664-668, 698-701. *)
Definition post_joint (v w : waypoint) (acc : list R) (j : Z) : fres ljoint :=
  a <-- rget (w_angles w) j ;; r <-- rget (w_rates w) j ;; n <-- rget (w_nominal v) j ;; b <-- rget (w_angles v) j ;;
  m <-- rget acc j ;; FOk (mk_lj a r n b m).

(** The five attempts at the quintic around a pseudo point, trajectory.cpp:617-647 (700-724): [true] when all five break the
    bound. A quintic that is not finite fails the comparisons. *)
Definition quintic_within (l r : list R) (t_l t_r a : R) : fres bool :=
  match quintic t_l (eval l t_l) (deriv_at l t_l) 0 t_r (eval r t_r) (deriv_at r t_r) 0 with
  | FOk q =>
      match deriv (deriv q) with
      | [c0; c1; c2; c3] =>
          FOk ((if Rlt_dec (Rabs (maximum_cubic t_l t_r c0 c1 c2 c3)) (Rabs a) then true else false)
               && (if Rlt_dec (Rabs (minimum_cubic t_l t_r c0 c1 c2 c3)) (Rabs a) then true else false))
      | _ => FUB
      end
  | FNonFinite => FOk false
  | FThrow e => FThrow e
  | FUB => FUB
  end.
Fixpoint attempts (try : Z -> fres bool) (todo : nat) (i : Z) : fres bool :=
  match todo with
  | O => FOk true
  | S todo' => ok <-- try i ;; if (ok : bool) then FOk false else attempts try todo' (i + 1)%Z
  end.
(** The loops over the joints, :609-649 (691-726): the flag is overwritten by every joint. *)
Fixpoint broken_joints (check : ljoint -> fres bool) (js : list ljoint) (broken : bool) : fres bool :=
  match js with [] => FOk broken | j :: js' => b <-- check j ;; broken_joints check js' b end.

(** The initial tangent of a joint, :586. *)
Definition initial_tangent (j : ljoint) : list R := point_slope 0 (j_angle j) (j_rate j).
(** The earliest intersection, :597-608. *)
Fixpoint pre_time (js : list ljoint) (tp t : R) : fres R :=
  match js with
  | [] => FOk t
  | j :: js' =>
      let f := initial_tangent j in
      let slope := -1 * IZR (psign (j_rate j)) * j_nominal j in
      p <-- snd (intersection (j_angle j - j_rate j * 0) (j_rate j) (j_angle j - slope * tp) slope false) ;;
      pre_time js' tp (if Rlt_dec (fst p) t then fst p else t)
  end.
(** One joint's check, :611-648. *)
Definition pre_check (dur tp t_pre : R) (j : ljoint) : fres bool :=
  let tangent := initial_tangent j in
  let pseudo_duration := tp + dur - t_pre in
  attempts (fun i =>
    segment <-- linear_interpolation t_pre (eval tangent t_pre) (tp + dur) (j_other j) ;;
    quintic_within tangent segment (t_pre - IZR i * t_pre / 5) (t_pre + IZR i * pseudo_duration / 10) (j_acc j)) 5 1.
(** The while loop, :592-652: the flag, t_pullback and t_pre_intersect_duration at its end. *)
Fixpoint pre_loop (fuel : nat) (js : list ljoint) (dur tp : R) (broken : bool) (t_pre : R) : fres (bool * R * R) :=
  match fuel with
  | O => FUB
  | S fuel' =>
      if broken && (if Rle_dec tp dur then true else false) then
        t <-- pre_time js tp (dur / 2) ;;
        b <-- broken_joints (pre_check dur tp t) js false ;;
        pre_loop fuel' js dur (tp * 2) b t
      else FOk (broken, tp, t_pre)
  end.

(** The line of the last segment, :667, and the final tangent, :682. *)
Definition final_tangent (tp : R) (j : ljoint) : list R := point_slope tp (j_angle j) (j_rate j).
Fixpoint post_time (js : list ljoint) (tp t : R) : fres R :=
  match js with
  | [] => FOk t
  | j :: js' =>
      let slope := -1 * IZR (psign (j_rate j)) * j_nominal j in
      p <-- snd (intersection (j_angle j - j_rate j * tp) (j_rate j) (j_angle j - slope * 0) slope false) ;;
      post_time js' tp (if Rlt_dec t (fst p) then fst p else t)
  end.
(** One joint's check, :693-725. *)
Definition post_check (dur tp t_post : R) (j : ljoint) : fres bool :=
  let tangent := final_tangent tp j in
  attempts (fun i =>
    segment <-- linear_interpolation (- dur) (j_other j) t_post (eval tangent t_post) ;;
    quintic_within segment tangent (t_post - IZR i * (dur + t_post) / 10) (t_post + IZR i * (tp - t_post) / 5) (j_acc j)) 5 1.
(** The while loop, :675-728. *)
Fixpoint post_loop (fuel : nat) (js : list ljoint) (dur tp : R) (broken : bool) (t_post : R) : fres (bool * R * R) :=
  match fuel with
  | O => FUB
  | S fuel' =>
      if broken && (if Rle_dec tp dur then true else false) then
        t <-- post_time js tp 0 ;;
        b <-- broken_joints (post_check dur tp t) js false ;;
        post_loop fuel' js dur (tp * 2) b t
      else FOk (broken, tp, t_post)
  end.
(** t doubles from a millisecond while it is at most [dur]: this many rounds are enough. *)
Definition doublings (dur : R) : nat := S (S (Z.to_nat (up (dur * 1000)))).

(** waypoint_times, :748-757; [t] is the time of the last element so far. *)
Fixpoint cumulate (t : R) (steps : list R) : list R :=
  match steps with [] => [] | d :: steps' => (t + d) :: cumulate (t + d) steps' end.
(** With n = 1 the store to element 2 is overwritten by the one to element n+1. [mids] are the durations of the waypoints
    1 .. n-2. *)
Definition linear_times (n : nat) (t_pre pre_duration : R) (mids : list R) (last_duration t_post post_duration : R) : list R :=
  let inner := t_pre :: (if (n =? 1)%nat then [] else cumulate t_pre (pre_duration :: mids)) in
  let t := last inner 0 + last_duration + t_post in
  0 :: inner ++ [t; t + post_duration].

(** The corner at which SmoothLinearSpline's constructor throws: the data of its DataException, smooth_linear_spline.cpp:104-106;
    -1 if it does not throw. *)
Definition corner_broken (x : list R) (segs : list (list R)) (a_max : R) (n i : Z) : bool :=
  match (l <-- aget segs (i - 1)%Z ;; r <-- aget segs i ;; l1 <-- rget l 1 ;; r1 <-- rget r 1 ;; xi <-- rget x i ;;
         if Req_EM_T l1 r1 then FOk ([], xi, xi)
         else xm <-- rget x (i - 1)%Z ;; xp <-- rget x (i + 1)%Z ;; sl_attempts xm xi xp (i =? 1)%Z (i =? n - 1)%Z l r a_max 5 1) with
  | FThrow _ => true
  | _ => false
  end.
Fixpoint broken_corner (x : list R) (segs : list (list R)) (a_max : R) (n : Z) (todo : nat) (i : Z) : Z :=
  match todo with
  | O => -1
  | S todo' => if corner_broken x segs a_max n i then i else broken_corner x segs a_max n todo' (i + 1)%Z
  end.
Definition failing_corner (x y : list R) (a_max : R) : Z :=
  let n := (length x - 1)%nat in
  match sl_segments x y n 0 with FOk segs => broken_corner x segs a_max (Z.of_nat n) (n - 1) 1 | _ => -1 end.

(** The last loop, :763-797: the splines, or the data of the exception. *)
Fixpoint linear_splines (times : list R) (columns : list (list R * R)) : fres (list lspline + Z) :=
  match columns with
  | [] => FOk (inl [])
  | (values, a) :: cs =>
      match smooth_linear times values a with
      | FThrow ConstructorError => FOk (inr (failing_corner times values a))
      | FOk s => r <-- linear_splines times cs ;;
                 FOk (match r with inl ss => inl (s :: ss) | inr d => inr d end)
      | FNonFinite => FNonFinite
      | FThrow e => FThrow e
      | FUB => FUB
      end
  end.
(** The values of joint [j], :769-777. *)
Definition linear_values (wps : list waypoint) (pre post : list R) (j : Z) : fres (list R) :=
  angles <-- fmap (fun w => rget (w_angles w) j) wps ;;
  p <-- rget pre j ;; q <-- rget post j ;;
  match angles with
  | a :: rest => FOk (a :: p :: removelast rest ++ [q; last rest 0])
  | [] => FUB
  end.

(** generateLinearSplines after the rates of the first and last waypoint have been settled, :551-801: the splines, or the
    data of the DataException<int>. [w0], [w1] are the first two waypoints, [wm], [wn] the last two. *)
Definition generate_linear (wps : list waypoint) (acc : list R) : fres (list lspline + Z) :=
  let n := (length wps - 1)%nat in
  let dim := length acc in
  w0 <-- aget wps 0 ;; w1 <-- aget wps 1 ;; wm <-- aget wps (Z.of_nat n - 1)%Z ;; wn <-- aget wps (Z.of_nat n) ;;
  pres <-- fmap (pre_joint w0 w1 acc) (joints dim) ;;
  pre <-- pre_loop (doublings (w_duration w0)) pres (w_duration w0) (1 / 1000) true 0 ;;
  let '(pre_broken, t_pullback, t_pre) := pre in
  if (pre_broken : bool) then FOk (inr 0%Z)
  else
    posts <-- fmap (post_joint wm wn acc) (joints dim) ;;
    post <-- post_loop (doublings (w_duration wm)) posts (w_duration wm) (1 / 1000) true 0 ;;
    let '(post_broken, t_pullforward, t_post) := post in
    if (post_broken : bool) then FOk (inr 0%Z)
    else
      (* final_tangents are the ones of the last round, made before t_pullforward was doubled *)
      let pre_angles := map (fun j => eval (initial_tangent j) t_pre) pres in
      let post_angles := map (fun j => eval (final_tangent (t_pullforward / 2) j) t_post) posts in
      let mids := map w_duration (firstn (n - 2) (skipn 1 wps)) in
      let times := linear_times n t_pre (t_pullback + w_duration w0 - t_pre) mids (w_duration wm) t_post (t_pullforward - t_post) in
      columns <-- fmap (fun j => v <-- linear_values wps pre_angles post_angles j ;; a <-- rget acc j ;; FOk (v, a)) (joints dim) ;;
      linear_splines times columns.

(** waypoints[i].duration(waypoints[i].duration() * f). *)
Definition stretch (wps : list waypoint) (i : Z) (f : R) : fres (list waypoint) :=
  w <-- aget wps i ;; FOk (zset wps i (set_duration w (w_duration w * f))).
(** The catch clause, trajectory.cpp:316-362. *)
Definition stretch_for (wps : list waypoint) (data : Z) : fres (list waypoint) :=
  let n := (Zlen wps - 1)%Z in
  if (data <=? 1)%Z then stretch wps 0 (11 / 10)
  else if (n + 1 <=? data)%Z then stretch wps (n - 1)%Z (11 / 10)
  else s <-- stretch wps (data - 2)%Z (21 / 20) ;; stretch s (data - 1)%Z (21 / 20).
(** The first and the last waypoint's rates, :543-550. *)
Definition settle_ends (wps : list waypoint) : list waypoint :=
  let n := (Zlen wps - 1)%Z in
  let step i ws := match zget ws i with Some w => zset ws i (settle_rates w) | None => ws end in
  step n (step 0%Z wps).
(** The while loop, :305-364: [inl] the splines, [inr] out of rounds; and the waypoints. *)
Fixpoint linear_loop (fuel : nat) (acc : list R) (wps : list waypoint) : fres (option (list lspline) * list waypoint) :=
  match fuel with
  | O => FOk (None, wps)
  | S fuel' =>
      let ws := settle_ends wps in
      r <-- generate_linear ws acc ;;
      match r with
      | inl ss => FOk (Some ss, ws)
      | inr data => ws' <-- stretch_for ws data ;; linear_loop fuel' acc ws'
      end
  end.
(** linearSplineInterpolation, :283-373: [None] when the rounds ran out; otherwise the duration and the functions of every
    joint. Dimension 0: splines[0] does not exist. *)
Definition linear_functions (ss : list lspline) : list (list sfun) :=
  map (fun s => [mk_sfun 0 (last (ls_domain s) 0) (PLinear s)]) ss.
Definition linear_interpolate (fuel : nat) (wps : list waypoint) (acc : list R) : fres (option (R * list (list sfun)) * list waypoint) :=
  ok <-- validate 2 wps ;;
  if negb ok then FThrow ConfigurationError
  else
    i <-- initialise_loop (length acc) wps ;;
    let '(ws, ok) := i in
    if negb ok then FThrow ConfigurationError
    else
      r <-- linear_loop fuel acc ws ;;
      match r with
      | (None, ws') => FOk (None, ws')
      | (Some ss, ws') =>
          s0 <-- aget ss 0 ;;
          FOk (Some (last (ls_domain s0) 0 - hd 0 (ls_domain s0), linear_functions ss), ws')
      end.

(** * Tension interpolation *)

(** generateTensionSplines, trajectory.cpp:803-825. *)
Definition generate_tension (debug : bool) (wps : list waypoint) (dim : nat) (tension t0 : R) : fres (list tspline) :=
  let times := t0 :: cumulate t0 (map w_duration (removelast wps)) in
  fmap (fun j => values <-- fmap (fun w => rget (w_angles w) j) wps ;; tension_spline debug times values tension) (joints dim).
(** The check of the accelerations at knot [i], :77-112: joints in order, the first one over its bound has a segment stretched. *)
Fixpoint check_knot (debug : bool) (ss : list tspline) (acc : list R) (x : R) (i j : Z) (wps : list waypoint) : fres (list waypoint * bool) :=
  match ss with
  | [] => FOk (wps, true)
  | s :: ss' =>
      d <-- ts_dderiv debug s x ;; a <-- rget acc j ;;
      if Rlt_dec a (Rabs d) then
        w0 <-- aget wps (i - 1)%Z ;; w1 <-- aget wps i ;; w2 <-- aget wps (i + 1)%Z ;;
        a0 <-- rget (w_angles w0) j ;; a1 <-- rget (w_angles w1) j ;; a2 <-- rget (w_angles w2) j ;;
        before <-- fdiv (a1 - a0) (w_duration w0) ;; after <-- fdiv (a2 - a1) (w_duration w1) ;;
        ws <-- stretch wps (if Rlt_dec (Rabs after) (Rabs before) then (i - 1)%Z else i) (11 / 10) ;;
        FOk (ws, false)
      else check_knot debug ss' acc x i (j + 1)%Z wps
  end.
Fixpoint check_knots (debug : bool) (ss : list tspline) (acc : list R) (xs : list R) (i : Z) (wps : list waypoint) (ok : bool) : fres (list waypoint * bool) :=
  match xs with
  | [] => FOk (wps, ok)
  | x :: xs' =>
      r <-- check_knot debug ss acc x i 0 wps ;;
      check_knots debug ss acc xs' (i + 1)%Z (fst r) (ok && snd r)
  end.
(** The first while loop, :66-115. *)
Fixpoint knots_loop (debug : bool) (fuel : nat) (acc : list R) (tension : R) (wps : list waypoint) : fres (option (list waypoint)) :=
  match fuel with
  | O => FOk None
  | S fuel' =>
      ss <-- generate_tension debug wps (length acc) tension 0 ;;
      s0 <-- aget ss 0 ;;
      let inner := removelast (tl (ts_domain s0)) in
      r <-- check_knots debug ss acc inner 1 wps true ;;
      if snd r then FOk (Some (fst r)) else knots_loop debug fuel' acc tension (fst r)
  end.
(** The quintic of one joint and whether it respects the bound, :151-180 (217-246). *)
Definition end_quintic (t0 y0 v0 t1 y1 v1 a : R) : fres (list R * bool) :=
  q <-- quintic t0 y0 v0 0 t1 y1 v1 0 ;;
  match deriv (deriv q) with
  | [c0; c1; c2; c3] =>
      FOk (q, (if Rlt_dec (Rabs (maximum_cubic t0 t1 c0 c1 c2 c3)) (Rabs a) then true else false)
              && (if Rlt_dec (Rabs (minimum_cubic t0 t1 c0 c1 c2 c3)) (Rabs a) then true else false))
  | _ => FUB
  end.
(** Leading quintics for one value of [t]: [None] when a joint breaks its bound. *)
Fixpoint leading_try (debug : bool) (ss : list tspline) (w : waypoint) (acc : list R) (t : R) (j : Z) : fres (option (list (list R))) :=
  match ss with
  | [] => FOk (Some [])
  | s :: ss' =>
      v <-- ts_deriv debug s (2 * t) ;; y <-- ts_eval debug s (2 * t) ;;
      y0 <-- rget (w_angles w) j ;; v0 <-- rget (w_rates w) j ;; a <-- rget acc j ;;
      r <-- end_quintic 0 y0 v0 (2 * t) y v a ;;
      if snd r then rest <-- leading_try debug ss' w acc t (j + 1)%Z ;; FOk (option_map (cons (fst r)) rest)
      else FOk None
  end.
(** i = 1 .. 5, :140-199: the time and the quintics. *)
Fixpoint leading_tries (debug : bool) (wps : list waypoint) (acc : list R) (tension : R) (todo : nat) (i : Z) : fres (option (R * list (list R))) :=
  match todo with
  | O => FOk None
  | S todo' =>
      w <-- aget wps 0 ;;
      let t := IZR i * w_duration w / 10 in
      ss <-- generate_tension debug wps (length acc) tension t ;;
      r <-- leading_try debug ss w acc t 0 ;;
      match r with
      | Some qs => FOk (Some (2 * t, qs))
      | None => leading_tries debug wps acc tension todo' (i + 1)%Z
      end
  end.
(** The second while loop, :136-200. *)
Fixpoint leading_loop (debug : bool) (fuel : nat) (acc : list R) (tension : R) (wps : list waypoint) : fres (option (list waypoint * R * list (list R))) :=
  match fuel with
  | O => FOk None
  | S fuel' =>
      r <-- leading_tries debug wps acc tension 5 1 ;;
      match r with
      | Some (t, qs) => FOk (Some (wps, t, qs))
      | None => ws <-- stretch wps 0 (11 / 10) ;; leading_loop debug fuel' acc tension ws
      end
  end.
(** Trailing quintics, :215-262. *)
Fixpoint trailing_try (debug : bool) (ss : list tspline) (w : waypoint) (acc : list R) (t t_f : R) (j : Z) : fres (option (list (list R))) :=
  match ss with
  | [] => FOk (Some [])
  | s :: ss' =>
      v <-- ts_deriv debug s (t_f - t) ;; y <-- ts_eval debug s (t_f - t) ;;
      yf <-- rget (w_angles w) j ;; vf <-- rget (w_rates w) j ;; a <-- rget acc j ;;
      r <-- end_quintic (t_f - t) y v (t_f + t) yf vf a ;;
      if snd r then rest <-- trailing_try debug ss' w acc t t_f (j + 1)%Z ;; FOk (option_map (cons (fst r)) rest)
      else FOk None
  end.
Fixpoint trailing_tries (debug : bool) (wps : list waypoint) (ss : list tspline) (acc : list R) (t_f : R) (todo : nat) (i : Z) : fres (option (R * R * list (list R))) :=
  match todo with
  | O => FOk None
  | S todo' =>
      wm <-- aget wps (Zlen wps - 2)%Z ;; wn <-- aget wps (Zlen wps - 1)%Z ;;
      let t := IZR i * w_duration wm / 10 in
      r <-- trailing_try debug ss wn acc t t_f 0 ;;
      match r with
      | Some qs => FOk (Some (t_f - t, t_f + t, qs))
      | None => trailing_tries debug wps ss acc t_f todo' (i + 1)%Z
      end
  end.
(** The third while loop, :208-263. *)
Fixpoint trailing_loop (debug : bool) (fuel : nat) (acc : list R) (tension leading : R) (wps : list waypoint) : fres (option (list waypoint * list tspline * (R * R * list (list R)))) :=
  match fuel with
  | O => FOk None
  | S fuel' =>
      ss <-- generate_tension debug wps (length acc) tension (leading / 2) ;;
      s0 <-- aget ss 0 ;;
      r <-- trailing_tries debug wps ss acc (last (ts_domain s0) 0) 5 1 ;;
      match r with
      | Some q => FOk (Some (wps, ss, q))
      | None => ws <-- stretch wps (Zlen wps - 2)%Z (11 / 10) ;; trailing_loop debug fuel' acc tension leading ws
      end
  end.
(** The functions of every joint, :270-279. *)
Fixpoint tension_pieces (leading t0 tf : R) (lq : list (list R)) (ss : list tspline) (tq : list (list R)) : list (list sfun) :=
  match lq, ss, tq with
  | l :: lq', s :: ss', q :: tq' =>
      [mk_sfun 0 leading (PQuintic l); mk_sfun leading t0 (PTension s); mk_sfun t0 tf (PQuintic q)] :: tension_pieces leading t0 tf lq' ss' tq'
  | _, _, _ => []
  end.
(** tensionSplineInterpolation, :36-281. The checks at the top are compiled in debug builds only. [fuel] bounds each of the
    three loops. *)
Definition tension_interpolate (debug : bool) (fuel : nat) (wps : list waypoint) (acc : list R) (tension : R)
  : fres (option (R * list (list sfun) * list waypoint)) :=
  if debug && (Zlen wps <? 5)%Z then FThrow ConfigurationError
  else
    ok <-- validate 5 wps ;;
    if debug && negb ok then FThrow ConfigurationError
    else
      i <-- initialise_loop (length acc) wps ;;
      let '(ws, ok) := i in
      if debug && negb ok then FThrow ConfigurationError
      else
        k <-- knots_loop debug fuel acc tension ws ;;
        match k with
        | None => FOk None
        | Some ws1 =>
            l <-- leading_loop debug fuel acc tension (settle_ends ws1) ;;
            match l with
            | None => FOk None
            | Some (ws2, leading, lq) =>
                t <-- trailing_loop debug fuel acc tension leading ws2 ;;
                match t with
                | None => FOk None
                | Some (ws3, ss, (t0, tf, tq)) => FOk (Some (tf, tension_pieces leading t0 tf lq ss tq, ws3))
                end
            end
        end.

(** * Ownership of the functions *)

(** A trajectory owns its functions through plain pointers; the compiler's copy constructor and assignment copy the pointers,
    and the destructor (and clear, redimension and both interpolations) delete them: trajectory.hpp:113-117,
    trajectory.cpp:498-512. The heap is the list of live objects. *)
Record traj_mem := mk_tm { tm_live : list Z; tm_next : Z }.
Definition tm_alloc (m : traj_mem) : Z * traj_mem := (tm_next m, mk_tm (tm_next m :: tm_live m) (tm_next m + 1)).
Definition tm_delete (m : traj_mem) (p : Z) : res traj_mem :=
  if existsb (Z.eqb p) (tm_live m) then Ok (mk_tm (filter (fun q => negb (Z.eqb p q)) (tm_live m)) (tm_next m)) else UB.
(** An interpolation: deletes what was there and allocates [k] functions for every joint. *)
Fixpoint tm_clear (ps : list Z) (m : traj_mem) : res traj_mem :=
  match ps with [] => Ok m | p :: ps' => m' <- tm_delete m p ;; tm_clear ps' m' end.
Fixpoint tm_allocs (k : nat) (m : traj_mem) : list Z * traj_mem :=
  match k with O => ([], m) | S k' => let '(p, m1) := tm_alloc m in let '(ps, m2) := tm_allocs k' m1 in (p :: ps, m2) end.
Definition tm_interpolate (k : nat) (own : list Z) (m : traj_mem) : res (list Z * traj_mem) :=
  m1 <- tm_clear own m ;; Ok (tm_allocs k m1).
(** Trajectory t2(t1), t2 = t1: the pointers. *)
Definition tm_copy (own : list Z) : list Z := own.
