(** Model of the classification of system call failures in ecl_devices: the code stored in error_handler (builds without
    exceptions) and the flag of the exception thrown, for every value of errno (Linux numbering).
    Files: /repo/ecl_devices/src/lib/detail/{error_handler,exception_handler_pos,socket_exception_handler_pos}.cpp and
    include/ecl/devices/detail/socket_error_handler_pos.hpp.  Messages and locations are not modelled. *)
From Coq Require Import List ZArith.
Import ListNotations.
Open Scope Z_scope.

(** The flags used; the enum lives in ecl_errors, outside /repo. *)
Inductive flag :=
| BlockingError | BusyError | CloseError | ConfigurationError | ConnectionError | ConnectionRefusedError | InterruptedError | InvalidArgError
| InvalidObjectError | MemoryError | NotFoundError | NotSupportedError | OpenError | OutOfRangeError | OutOfResourcesError
| PermissionsError | SystemFailureError | TimeOutError | UnknownError | UsageError | WriteError.
Definition flag_eq_dec (a b : flag) : {a = b} + {a <> b}. Proof. decide equality. Defined.

(** Linux errno and h_errno values. *)
Definition EPERM : Z := 1.
Definition ENOENT : Z := 2.
Definition EINTR : Z := 4.
Definition EIO : Z := 5.
Definition EBADF : Z := 9.
Definition EAGAIN : Z := 11.
Definition EWOULDBLOCK : Z := 11.
Definition ENOMEM : Z := 12.
Definition EACCES : Z := 13.
Definition EFAULT : Z := 14.
Definition ENOTDIR : Z := 20.
Definition EISDIR : Z := 21.
Definition EINVAL : Z := 22.
Definition ENFILE : Z := 23.
Definition EMFILE : Z := 24.
Definition ENOTTY : Z := 25.
Definition ETXTBSY : Z := 26.
Definition EFBIG : Z := 27.
Definition ENOSPC : Z := 28.
Definition EROFS : Z := 30.
Definition EPIPE : Z := 32.
Definition ENAMETOOLONG : Z := 36.
Definition ELOOP : Z := 40.
Definition EPROTO : Z := 71.
Definition EOVERFLOW : Z := 75.
Definition ENOTSOCK : Z := 88.
Definition EMSGSIZE : Z := 90.
Definition EPROTONOSUPPORT : Z := 93.
Definition EOPNOTSUPP : Z := 95.
Definition EAFNOSUPPORT : Z := 97.
Definition EADDRINUSE : Z := 98.
Definition EADDRNOTAVAIL : Z := 99.
Definition ENETUNREACH : Z := 101.
Definition ECONNABORTED : Z := 103.
Definition ECONNRESET : Z := 104.
Definition ENOBUFS : Z := 105.
Definition EISCONN : Z := 106.
Definition ENOTCONN : Z := 107.
Definition ETIMEDOUT : Z := 110.
Definition ECONNREFUSED : Z := 111.
Definition EHOSTUNREACH : Z := 113.
Definition EALREADY : Z := 114.
Definition EINPROGRESS : Z := 115.
Definition HOST_NOT_FOUND : Z := 1.
Definition TRY_AGAIN : Z := 2.
Definition NO_RECOVERY : Z := 3.
Definition NO_ADDRESS : Z := 4.
(** [A || B] on integers, as written in some case labels (a logical or: the label is 1). *)
Definition c_or (a b : Z) : Z := if orb (negb (a =? 0)) (negb (b =? 0)) then 1 else 0.

(** A switch: the case labels with what they return; anything else is UnknownError. *)
Fixpoint switch (cases : list (Z * flag)) (e : Z) : flag :=
  match cases with [] => UnknownError | (k, f) :: cs => if e =? k then f else switch cs e end.

(** error_handler.cpp:34-54. *)
Definition open_error : Z -> flag := switch
  [(EINVAL, InvalidArgError); (EACCES, PermissionsError); (EFBIG, OutOfResourcesError);
   (EOVERFLOW, OutOfResourcesError); (EINTR, InterruptedError); (EISDIR, InvalidObjectError);
   (ELOOP, SystemFailureError); (EMFILE, OutOfResourcesError); (ENFILE, OutOfResourcesError);
   (ENAMETOOLONG, InvalidArgError); (ENOMEM, MemoryError); (ENOSPC, OutOfResourcesError);
   (ENOTDIR, InvalidObjectError); (EROFS, PermissionsError); (ETXTBSY, UsageError)].
(** error_handler.cpp:57-71. *)
Definition write_error : Z -> flag := switch
  [(EAGAIN, BlockingError); (EBADF, InvalidObjectError); (EINVAL, InvalidObjectError); (EFAULT, OutOfRangeError);
   (EFBIG, MemoryError);
   (EINTR, InterruptedError); (EIO, SystemFailureError); (ENOSPC, OutOfResourcesError); (EPIPE, PermissionsError)].
(** error_handler.cpp:74-86. *)
Definition read_error : Z -> flag := switch
  [(EAGAIN, BlockingError); (EBADF, PermissionsError); (EINVAL, PermissionsError); (EFAULT, OutOfRangeError);
   (EINTR, InterruptedError);
   (EIO, SystemFailureError); (EISDIR, InvalidObjectError)].
(** error_handler.cpp:87-96. *)
Definition sync_error : Z -> flag := switch
  [(EBADF, InvalidArgError); (EIO, CloseError); (EROFS, NotSupportedError); (EINVAL, NotSupportedError)].
(** error_handler.cpp:97-105. *)
Definition close_error : Z -> flag := switch
  [(EBADF, InvalidArgError); (EIO, SystemFailureError); (EINTR, InterruptedError)].

(** exception_handler_pos.cpp:44-70. *)
Definition open_exception : Z -> flag := switch
  [(ENOENT, NotFoundError); (EINVAL, InvalidArgError); (EACCES, PermissionsError); (EFBIG, OutOfResourcesError);
   (EOVERFLOW, OutOfResourcesError); (EINTR, InterruptedError); (EISDIR, InvalidObjectError);
   (ELOOP, SystemFailureError); (EMFILE, OutOfResourcesError); (ENFILE, OutOfResourcesError);
   (ENAMETOOLONG, InvalidArgError); (ENOMEM, MemoryError); (ENOSPC, OutOfResourcesError);
   (ENOTDIR, InvalidObjectError); (EROFS, PermissionsError); (ETXTBSY, UsageError)].
(** exception_handler_pos.cpp:73-92. *)
Definition write_exception : Z -> flag := switch
  [(EAGAIN, BlockingError); (EBADF, InvalidObjectError); (EINVAL, InvalidObjectError); (EFAULT, OutOfRangeError);
   (EFBIG, MemoryError);
   (EINTR, InterruptedError); (EIO, SystemFailureError); (ENOSPC, OutOfResourcesError); (EPIPE, PermissionsError)].
(** exception_handler_pos.cpp:95-112. *)
Definition read_exception : Z -> flag := switch
  [(EAGAIN, BlockingError); (EBADF, PermissionsError); (EINVAL, PermissionsError); (EFAULT, OutOfRangeError);
   (EINTR, InterruptedError);
   (EIO, SystemFailureError); (EISDIR, InvalidObjectError)].
(** exception_handler_pos.cpp:113-127. *)
Definition sync_exception : Z -> flag := switch
  [(EBADF, InvalidArgError); (EIO, CloseError); (EROFS, NotSupportedError); (EINVAL, NotSupportedError)].
(** exception_handler_pos.cpp:128-141. *)
Definition close_exception : Z -> flag := switch
  [(EBADF, InvalidArgError); (EIO, SystemFailureError); (EINTR, InterruptedError)].

(** socket_error_handler_pos.hpp:47-59. *)
Definition socket_error : Z -> flag := switch
  [(EACCES, OpenError); (EAFNOSUPPORT, NotSupportedError); (EINVAL, InvalidArgError); (EMFILE, OutOfRangeError);
   (ENFILE, OutOfResourcesError); (ENOBUFS, MemoryError); (ENOMEM, MemoryError);
   (EPROTONOSUPPORT, NotSupportedError)].
(** socket_error_handler_pos.hpp:65-82. *)
Definition bind_error : Z -> flag := switch
  [(EACCES, PermissionsError); (EADDRINUSE, BusyError); (EBADF, InvalidObjectError); (EINVAL, BusyError);
   (ENOTSOCK, InvalidObjectError); (EADDRNOTAVAIL, InvalidObjectError); (EFAULT, OutOfRangeError);
   (ELOOP, SystemFailureError); (ENAMETOOLONG, InvalidArgError); (ENOENT, InvalidObjectError);
   (ENOMEM, MemoryError); (ENOTDIR, InvalidArgError); (EROFS, PermissionsError)].
(** socket_error_handler_pos.hpp:88-106. *)
Definition accept_error : Z -> flag := switch
  [(EWOULDBLOCK, BlockingError); (EBADF, InvalidObjectError); (ECONNABORTED, InterruptedError);
   (EINTR, InterruptedError); (EINVAL, UsageError); (EMFILE, OutOfResourcesError); (ENFILE, OutOfResourcesError);
   (ENOTSOCK, InvalidObjectError); (EOPNOTSUPP, InvalidObjectError); (EFAULT, PermissionsError);
   (ENOBUFS, MemoryError); (ENOMEM, MemoryError); (EPROTO, InvalidArgError); (EPERM, PermissionsError)].
(** socket_error_handler_pos.hpp:112-126. *)
Definition receive_error : Z -> flag := switch
  [(c_or EAGAIN EWOULDBLOCK, InterruptedError); (EBADF, InvalidObjectError); (ECONNREFUSED, ConnectionError);
   (EFAULT, SystemFailureError); (EINTR, InterruptedError); (EINVAL, InvalidArgError); (ENOMEM, MemoryError);
   (ENOTCONN, ConnectionError); (ENOTSOCK, InvalidObjectError)].
(** socket_error_handler_pos.hpp:132-140. *)
Definition ioctl_error : Z -> flag := switch
  [(EBADF, InvalidObjectError); (EFAULT, OutOfRangeError); (EINVAL, InvalidArgError); (ENOTTY, InvalidObjectError)].
(** socket_error_handler_pos.hpp:148-168. *)
Definition send_error : Z -> flag := switch
  [(c_or EAGAIN EWOULDBLOCK, BlockingError); (EWOULDBLOCK, BlockingError); (EACCES, PermissionsError);
   (EBADF, InvalidObjectError); (ECONNRESET, InterruptedError); (EFAULT, SystemFailureError);
   (EINTR, InterruptedError); (EINVAL, InvalidArgError); (EISCONN, ConnectionError); (EMSGSIZE, WriteError);
   (ENOBUFS, OutOfResourcesError); (ENOMEM, MemoryError); (ENOTCONN, ConnectionError);
   (ENOTSOCK, InvalidObjectError); (EOPNOTSUPP, NotSupportedError); (EPIPE, InterruptedError)].
(** socket_error_handler_pos.hpp:176-183. *)
Definition gethostbyname_error : Z -> flag := switch
  [(HOST_NOT_FOUND, ConnectionError); (NO_ADDRESS, InvalidArgError); (NO_RECOVERY, UnknownError)].
(** socket_error_handler_pos.hpp:189-207. *)
Definition connection_error : Z -> flag := switch
  [(c_or EACCES EPERM, PermissionsError); (EADDRINUSE, BusyError); (EAFNOSUPPORT, NotSupportedError);
   (EAGAIN, OutOfResourcesError); (EALREADY, BlockingError); (EBADF, InvalidObjectError);
   (ECONNREFUSED, ConnectionRefusedError); (EFAULT, OutOfRangeError); (EINPROGRESS, BlockingError);
   (EINTR, InterruptedError); (EISCONN, ConnectionError); (ENETUNREACH, ConfigurationError);
   (ENOTSOCK, InvalidObjectError); (ETIMEDOUT, TimeOutError)].

(** socket_exception_handler_pos.cpp:34-50. *)
Definition socket_exception : Z -> flag := switch
  [(EACCES, OpenError); (EAFNOSUPPORT, NotSupportedError); (EINVAL, InvalidArgError); (EMFILE, OutOfRangeError);
   (ENFILE, OutOfResourcesError); (ENOBUFS, MemoryError); (ENOMEM, MemoryError);
   (EPROTONOSUPPORT, NotSupportedError)].
(** socket_exception_handler_pos.cpp:52-73. *)
Definition bind_exception : Z -> flag := switch
  [(EACCES, PermissionsError); (EADDRINUSE, BusyError); (EBADF, InvalidObjectError); (EINVAL, BusyError);
   (ENOTSOCK, InvalidObjectError); (EADDRNOTAVAIL, InvalidObjectError); (EFAULT, OutOfRangeError);
   (ELOOP, SystemFailureError); (ENAMETOOLONG, InvalidArgError); (ENOENT, InvalidObjectError);
   (ENOMEM, MemoryError); (ENOTDIR, InvalidArgError); (EROFS, PermissionsError)].
(** socket_exception_handler_pos.cpp:75-97. *)
Definition accept_exception : Z -> flag := switch
  [(EWOULDBLOCK, BlockingError); (EBADF, InvalidObjectError); (ECONNABORTED, InterruptedError);
   (EINTR, InterruptedError); (EINVAL, UsageError); (EMFILE, OutOfResourcesError); (ENFILE, OutOfResourcesError);
   (ENOTSOCK, InvalidObjectError); (EOPNOTSUPP, InvalidObjectError); (EFAULT, PermissionsError);
   (ENOBUFS, MemoryError); (ENOMEM, MemoryError); (EPROTO, InvalidArgError); (EPERM, PermissionsError)].
(** socket_exception_handler_pos.cpp:99-117. *)
Definition receive_exception : Z -> flag := switch
  [(c_or EAGAIN EWOULDBLOCK, InterruptedError); (EBADF, InvalidObjectError); (ECONNREFUSED, ConnectionError);
   (EFAULT, SystemFailureError); (EINTR, InterruptedError); (EINVAL, InvalidArgError); (ENOMEM, MemoryError);
   (ENOTCONN, ConnectionError); (ENOTSOCK, InvalidObjectError)].
(** socket_exception_handler_pos.cpp:119-144. *)
Definition send_exception : Z -> flag := switch
  [(c_or EAGAIN EWOULDBLOCK, BlockingError); (EWOULDBLOCK, BlockingError); (EACCES, PermissionsError);
   (EBADF, InvalidObjectError); (ECONNRESET, InterruptedError); (EFAULT, SystemFailureError);
   (EINTR, InterruptedError); (EINVAL, InvalidArgError); (EISCONN, ConnectionError); (EMSGSIZE, WriteError);
   (ENOBUFS, OutOfResourcesError); (ENOMEM, MemoryError); (ENOTCONN, ConnectionError);
   (ENOTSOCK, InvalidObjectError); (EOPNOTSUPP, NotSupportedError); (EPIPE, InterruptedError)].
(** socket_exception_handler_pos.cpp:146-159. *)
Definition ioctl_exception : Z -> flag := switch
  [(EBADF, InvalidObjectError); (EFAULT, OutOfRangeError); (EINVAL, InvalidArgError); (ENOTTY, InvalidObjectError)].
(** socket_exception_handler_pos.cpp:161-178. *)
Definition gethostbyname_exception : Z -> flag := switch
  [(HOST_NOT_FOUND, OpenError); (TRY_AGAIN, OpenError); (NO_ADDRESS, InvalidArgError); (NO_RECOVERY, UnknownError)].
(** socket_exception_handler_pos.cpp:180-204. *)
Definition connection_exception : Z -> flag := switch
  [(c_or EACCES EPERM, PermissionsError); (EADDRINUSE, BusyError); (EAFNOSUPPORT, NotSupportedError);
   (EAGAIN, OutOfResourcesError); (EALREADY, BlockingError); (EBADF, InvalidObjectError);
   (ECONNREFUSED, ConnectionRefusedError); (EFAULT, OutOfRangeError); (EINPROGRESS, BlockingError);
   (EINTR, InterruptedError); (EISCONN, ConnectionError); (ENETUNREACH, NotFoundError);
   (EHOSTUNREACH, NotFoundError); (ENOTSOCK, InvalidObjectError); (ETIMEDOUT, TimeOutError)].
