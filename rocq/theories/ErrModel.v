(** * ErrModel: error codes, error conditions and the errc enumeration (uerror.h). *)
From Verif Require Import Base.
From Coq Require Import ZArith List.
Import ListNotations.
Local Open Scope Z_scope.

(** errno.h (Linux): the names used by uerror.h, and their numbers. *)
Inductive ename := E2BIG | EACCES | EADDRINUSE | EADDRNOTAVAIL | EAFNOSUPPORT | EAGAIN | EALREADY | EBADF | EBADMSG | EBUSY |
  ECANCELED | ECHILD | ECONNABORTED | ECONNREFUSED | ECONNRESET | EDEADLK | EDESTADDRREQ | EDOM | EEXIST | EFAULT |
  EFBIG | EHOSTUNREACH | EIDRM | EILSEQ | EINPROGRESS | EINTR | EINVAL | EIO | EISCONN | EISDIR | ELOOP | EMFILE |
  EMLINK | EMSGSIZE | ENAMETOOLONG | ENETDOWN | ENETRESET | ENETUNREACH | ENFILE | ENOBUFS | ENODATA | ENODEV |
  ENOENT | ENOEXEC | ENOLCK | ENOLINK | ENOMEM | ENOMSG | ENOPROTOOPT | ENOSPC | ENOSR | ENOSTR | ENOSYS | ENOTCONN |
  ENOTDIR | ENOTEMPTY | ENOTRECOVERABLE | ENOTSOCK | ENOTSUP | ENOTTY | ENXIO | EOPNOTSUPP | EOVERFLOW | EOWNERDEAD |
  EPERM | EPIPE | EPROTO | EPROTONOSUPPORT | EPROTOTYPE | ERANGE | EROFS | ESPIPE | ESRCH | ETIME | ETIMEDOUT |
  ETXTBSY | EXDEV.
Definition enumber (e : ename) : Z :=
  match e with
  | E2BIG => 7 | EACCES => 13 | EADDRINUSE => 98 | EADDRNOTAVAIL => 99 | EAFNOSUPPORT => 97 | EAGAIN => 11
  | EALREADY => 114 | EBADF => 9 | EBADMSG => 74 | EBUSY => 16 | ECANCELED => 125 | ECHILD => 10
  | ECONNABORTED => 103 | ECONNREFUSED => 111 | ECONNRESET => 104 | EDEADLK => 35 | EDESTADDRREQ => 89 | EDOM => 33
  | EEXIST => 17 | EFAULT => 14 | EFBIG => 27 | EHOSTUNREACH => 113 | EIDRM => 43 | EILSEQ => 84 | EINPROGRESS => 115
  | EINTR => 4 | EINVAL => 22 | EIO => 5 | EISCONN => 106 | EISDIR => 21 | ELOOP => 40 | EMFILE => 24 | EMLINK => 31
  | EMSGSIZE => 90 | ENAMETOOLONG => 36 | ENETDOWN => 100 | ENETRESET => 102 | ENETUNREACH => 101 | ENFILE => 23
  | ENOBUFS => 105 | ENODATA => 61 | ENODEV => 19 | ENOENT => 2 | ENOEXEC => 8 | ENOLCK => 37 | ENOLINK => 67
  | ENOMEM => 12 | ENOMSG => 42 | ENOPROTOOPT => 92 | ENOSPC => 28 | ENOSR => 63 | ENOSTR => 60 | ENOSYS => 38
  | ENOTCONN => 107 | ENOTDIR => 20 | ENOTEMPTY => 39 | ENOTRECOVERABLE => 131 | ENOTSOCK => 88 | ENOTSUP => 95
  | ENOTTY => 25 | ENXIO => 6 | EOPNOTSUPP => 95 | EOVERFLOW => 75 | EOWNERDEAD => 130 | EPERM => 1 | EPIPE => 32
  | EPROTO => 71 | EPROTONOSUPPORT => 93 | EPROTOTYPE => 91 | ERANGE => 34 | EROFS => 30 | ESPIPE => 29 | ESRCH => 3
  | ETIME => 62 | ETIMEDOUT => 110 | ETXTBSY => 26 | EXDEV => 18
  end.
(** uerror.h:21-100 [errc]. *)
Inductive errc := address_family_not_supported | address_in_use | address_not_available | already_connected |
  argument_list_too_long | argument_out_of_domain | bad_address | bad_file_descriptor | bad_message | broken_pipe |
  connection_aborted | connection_already_in_progress | connection_refused | connection_reset | cross_device_link |
  destination_address_required | device_or_resource_busy | directory_not_empty | executable_format_error |
  file_exists | file_too_large | filename_too_long | function_not_supported | host_unreachable | identifier_removed |
  illegal_byte_sequence | inappropriate_io_control_operation | interrupted | invalid_argument | invalid_seek |
  io_error | is_a_directory | message_size | network_down | network_reset | network_unreachable | no_buffer_space |
  no_child_process | no_link | no_lock_available | no_message_available | no_message | no_protocol_option |
  no_space_on_device | no_stream_resources | no_such_device_or_address | no_such_device | no_such_file_or_directory |
  no_such_process | not_a_directory | not_a_socket | not_a_stream | not_connected | not_enough_memory |
  not_supported | operation_canceled | operation_in_progress | operation_not_permitted | operation_not_supported |
  operation_would_block | owner_dead | permission_denied | protocol_error | protocol_not_supported |
  read_only_file_system | resource_deadlock_would_occur | resource_unavailable_try_again | result_out_of_range |
  state_not_recoverable | stream_timeout | text_file_busy | timed_out | too_many_files_open_in_system |
  too_many_files_open | too_many_links | too_many_symbolic_link_levels | value_too_large | wrong_protocol_type.
Definition errc_name (e : errc) : ename :=
  match e with
  | address_family_not_supported => EAFNOSUPPORT | address_in_use => EADDRINUSE
  | address_not_available => EADDRNOTAVAIL | already_connected => EISCONN | argument_list_too_long => E2BIG
  | argument_out_of_domain => EDOM | bad_address => EFAULT | bad_file_descriptor => EBADF | bad_message => EBADMSG
  | broken_pipe => EPIPE | connection_aborted => ECONNABORTED | connection_already_in_progress => EALREADY
  | connection_refused => ECONNREFUSED | connection_reset => ECONNRESET | cross_device_link => EXDEV
  | destination_address_required => EDESTADDRREQ | device_or_resource_busy => EBUSY
  | directory_not_empty => ENOTEMPTY | executable_format_error => ENOEXEC | file_exists => EEXIST
  | file_too_large => EFBIG | filename_too_long => ENAMETOOLONG | function_not_supported => ENOSYS
  | host_unreachable => EHOSTUNREACH | identifier_removed => EIDRM | illegal_byte_sequence => EILSEQ
  | inappropriate_io_control_operation => ENOTTY | interrupted => EINTR | invalid_argument => EINVAL
  | invalid_seek => ESPIPE | io_error => EIO | is_a_directory => EISDIR | message_size => EMSGSIZE
  | network_down => ENETDOWN | network_reset => ENETRESET | network_unreachable => ENETUNREACH
  | no_buffer_space => ENOBUFS | no_child_process => ECHILD | no_link => ENOLINK | no_lock_available => ENOLCK
  | no_message_available => ENODATA | no_message => ENOMSG | no_protocol_option => ENOPROTOOPT
  | no_space_on_device => ENOSPC | no_stream_resources => ENOSR | no_such_device_or_address => ENXIO
  | no_such_device => ENODEV | no_such_file_or_directory => ENOENT | no_such_process => ESRCH
  | not_a_directory => ENOTDIR | not_a_socket => ENOTSOCK | not_a_stream => ENOSTR | not_connected => ENOTCONN
  | not_enough_memory => ENOMEM | not_supported => EINVAL | operation_canceled => ECANCELED
  | operation_in_progress => EINPROGRESS | operation_not_permitted => EPERM | operation_not_supported => EOPNOTSUPP
  | operation_would_block => EAGAIN | owner_dead => EOWNERDEAD | permission_denied => EACCES
  | protocol_error => EPROTO | protocol_not_supported => EPROTONOSUPPORT | read_only_file_system => EROFS
  | resource_deadlock_would_occur => EDEADLK | resource_unavailable_try_again => EAGAIN
  | result_out_of_range => ERANGE | state_not_recoverable => ENOTRECOVERABLE | stream_timeout => ETIME
  | text_file_busy => ETXTBSY | timed_out => ETIMEDOUT | too_many_files_open_in_system => ENFILE
  | too_many_files_open => EMFILE | too_many_links => EMLINK | too_many_symbolic_link_levels => ELOOP
  | value_too_large => EOVERFLOW | wrong_protocol_type => EPROTOTYPE
  end.
Definition errc_value (e : errc) : Z := enumber (errc_name e).

(** uerror.h:110-125 [error_category]: there is nothing in it; all are equal. *)
Inductive category := Category.
Definition cat_eq (a b : category) : bool := true.
Definition system_category : category := Category.
Definition generic_category : category := Category.
(** uerror.h:130-156 [error_code], 161-188 [error_condition]. *)
Record error_code := mkec { ec_value : Z }.
Record error_condition := mkcond { cond_value : Z }.
Definition ec_default : error_code := mkec 0.
Definition ec_new (v : Z) (c : category) : error_code := mkec v.
Definition make_error_code (e : errc) : error_code := ec_new (errc_value e) system_category.
Definition ec_clear (x : error_code) : error_code := mkec 0.
Definition ec_category (x : error_code) : category := system_category.
Definition ec_bool (x : error_code) : bool := negb (ec_value x =? 0).
Definition ec_eq (x y : error_code) : bool := cat_eq (ec_category x) (ec_category y) && (ec_value x =? ec_value y).
Definition cond_default : error_condition := mkcond 0.
Definition cond_new (v : Z) (c : category) : error_condition := mkcond v.
Definition make_error_condition (e : errc) : error_condition := cond_new (errc_value e) generic_category.
Definition cond_clear (x : error_condition) : error_condition := mkcond 0.
Definition cond_category (x : error_condition) : category := generic_category.
Definition cond_bool (x : error_condition) : bool := negb (cond_value x =? 0).
Definition cond_eq (x y : error_condition) : bool := cat_eq (cond_category x) (cond_category y) && (cond_value x =? cond_value y).
(** uerror.h:181-182, 199-200: a code and a condition. *)
Definition ec_cond_eq (x : error_code) (y : error_condition) : bool := cat_eq (ec_category x) (cond_category y) && (ec_value x =? cond_value y).
Definition cond_ec_eq (y : error_condition) (x : error_code) : bool := cat_eq (cond_category y) (ec_category x) && (cond_value y =? ec_value x).
(** uerror.h:190-198. *)
Definition cat_default_condition (c : category) (v : Z) : error_condition := cond_new v c.
Definition cat_equivalent_code (c : category) (v : Z) (k : error_condition) : bool := cat_eq c (cond_category k) && (v =? cond_value k).
Definition cat_equivalent_cond (c : category) (x : error_code) (v : Z) : bool := cat_eq c (ec_category x) && (v =? ec_value x).
Definition ec_default_condition (x : error_code) : error_condition := cond_new (ec_value x) (ec_category x).
(** ustdxept.h:154-165: [system_error (ec, operation)] keeps the number; [code ()]. *)
Definition sys_errno (x : error_code) : Z := ec_value x.
Definition sys_code (eno : Z) : error_code := ec_new eno system_category.
