(** Model of ecl::realpath, /repo/ecl_filesystem/src/lib/realpath.cpp:36-65.
    The C library's realpath is a parameter: what it answers for a path and what it leaves in the buffer. *)
From Coq Require Import ZArith List.
Import ListNotations.
From Verif Require Import Base.
Open Scope Z_scope.

(** errno(3) on Linux. *)
Definition EIO : Z := 5. Definition EACCES : Z := 13. Definition EINVAL : Z := 22. Definition ENOENT : Z := 2.
Definition ENOTDIR : Z := 20. Definition ENAMETOOLONG : Z := 36. Definition ELOOP : Z := 40.
(** ecl_errors' ErrorFlag, as far as it is used here (the package is not part of the repository). *)
Inductive flag := NoError | PermissionsError | InvalidArgError | ReadError | InvalidObjectError | NotFoundError | UnknownError.
(** What ::realpath answers: the resolved path, or errno; in the second case the buffer may hold a text ended by a zero byte
    or may not have been written to (a conforming library may do either). *)
Inductive answer := Resolved (path : list Z) | Failed (errno : Z) (left : option (list Z)).
(** The switch, 52-61. *)
Definition flag_of (errno : Z) : flag :=
  if errno =? EACCES then PermissionsError
  else if errno =? EINVAL then InvalidArgError
  else if errno =? EIO then ReadError
  else if errno =? ELOOP then InvalidObjectError
  else if errno =? ENAMETOOLONG then InvalidArgError
  else if errno =? ENOENT then NotFoundError
  else if errno =? ENOTDIR then InvalidObjectError
  else UnknownError.
(** The number of buffers allocated and never freed is part of the state. 46-49: absolute_path is assigned from the buffer
    whether or not the call succeeded; 50-64. *)
Definition realpath (lib : list Z -> answer) (path absolute_path : list Z) (lost : Z) : res (flag * list Z * Z) :=
  match lib path with
  | Resolved p => Ok (NoError, p, lost)
  | Failed e (Some t) => Ok (flag_of e, t, lost + 1)
  | Failed e None => UB
  end.
(** A program that resolves paths one after the other, with a string of its own for each. *)
Fixpoint realpaths (lib : list Z -> answer) (paths : list (list Z)) (lost : Z) : res (list (flag * list Z) * Z) :=
  match paths with
  | [] => Ok ([], lost)
  | p :: tl =>
    r <- realpath lib p [] lost ;; let '(f, a, lost1) := r in
    r2 <- realpaths lib tl lost1 ;; let '(l, lost2) := r2 in Ok ((f, a) :: l, lost2)
  end.
