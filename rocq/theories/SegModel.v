(** Model of ecl_geometry linear_segment.cpp. *)
From Verif Require Import RBase.
Open Scope R_scope.

(** The coefficients A, B, C set by the constructor, linear_segment.cpp:27-33 (the divisor is not zero there). *)
Definition segment_coefficients (x1 y1 x2 y2 : R) : R * R * R :=
  if Req_EM_T x2 x1 then (1, 0, x1)
  else let a := -1 * (y2 - y1) / (x2 - x1) in (a, 1, - y1 - x1 * a).

(** LinearSegment::squaredDistanceFromPoint, linear_segment.cpp:36-58. *)
Definition squared_distance (x1 y1 x2 y2 x y : R) : R :=
  let dot := (x - x1) * (x2 - x1) + (y - y1) * (y2 - y1) in
  let len := (x2 - x1) * (x2 - x1) + (y2 - y1) * (y2 - y1) in
  let t := if Req_EM_T len 0 then -1 else dot / len in
  let '(xx, yy) :=
    if Rlt_dec t 0 then (x1, y1)
    else if Rlt_dec 1 t then (x2, y2)
    else (x1 + t * (x2 - x1), y1 + t * (y2 - y1)) in
  (x - xx) * (x - xx) + (y - yy) * (y - yy).
