(** Model of the creation of event loops and sockets on Windows and of the options of sockets: lib/src/platform/windows/iocp.c 43-76,
    windows/socket_utils.c 37-51, windows/socket.c 190-249, 347-406, windows/server_socket.c 162-233, 256-298.

    The kernel knows completion ports and sockets, each call can fail ([fate] of the number of the call: the positive error).  Sockets
    here have no operation in flight (see C64 and C66 for those), so that closing frees them at once.  Numbers of handles are never
    used again; 0 and INVALID_SOCKET are not among them. *)
From Verif Require Import Base.
Open Scope Z_scope.

(** error_code.h with error_code_impl.h of Windows: WSAEINVAL, WSAEOPNOTSUPP, WSAENOTSOCK, ERROR_INVALID_HANDLE, WSANOTINITIALISED. *)
Definition SUCCESS : Z := 0.
Definition INVALID_ARGUMENT : Z := (-10022).
Definition OPERATION_NOT_SUPPORTED : Z := (-10045).
Definition WSAEINVAL : Z := 10022.
Definition WSAENOTSOCK : Z := 10038.
Definition WSANOTINITIALISED : Z := 10093.
Definition ERROR_INVALID_HANDLE : Z := 6.
(** address_family_impl.h: AF_UNSPEC, AF_INET, AF_INET6. *)
Definition UNSPEC : Z := 0.
Definition INET4 : Z := 2.
Definition INET6 : Z := 23.

(** Options of a socket: TCP_NODELAY, SO_REUSEADDR, TCP_FASTOPEN with a number; SIO_KEEPALIVE_VALS with on/off and two times in
    milliseconds. *)
Inductive opt := ONoDelay | OReuse | OFastOpen.
Definition opt_eqb (a b : opt) : bool :=
  match a, b with ONoDelay, ONoDelay | OReuse, OReuse | OFastOpen, OFastOpen => true | _, _ => false end.
Record ksock := KSock { k_family : Z; k_port : option nat; k_bound : bool; k_opts : list (opt * Z); k_alive : option (Z * Z * Z) }.
(** [k_errno] is errno of the C library, which no call below sets; [k_stray] counts calls with handles that are not open; [k_wsa]
    counts WSAStartup minus WSACleanup. *)
Record kernel := Kernel { k_calls : nat; k_next : nat; k_ports : list nat; k_socks : list (nat * ksock); k_wsa : nat;
  k_last : Z; k_errno : Z; k_stray : nat }.

Section Fate.
Variable fate : nat -> option Z.

Definition tick (k : kernel) : kernel :=
  Kernel (S (k_calls k)) (k_next k) (k_ports k) (k_socks k) (k_wsa k) (k_last k) (k_errno k) (k_stray k).
Definition set_last (e : Z) (k : kernel) : kernel :=
  Kernel (k_calls k) (k_next k) (k_ports k) (k_socks k) (k_wsa k) e (k_errno k) (k_stray k).
Definition set_ports (l : list nat) (k : kernel) : kernel :=
  Kernel (k_calls k) (k_next k) l (k_socks k) (k_wsa k) (k_last k) (k_errno k) (k_stray k).
Definition set_socks (l : list (nat * ksock)) (k : kernel) : kernel :=
  Kernel (k_calls k) (k_next k) (k_ports k) l (k_wsa k) (k_last k) (k_errno k) (k_stray k).
Definition set_wsa (n : nat) (k : kernel) : kernel :=
  Kernel (k_calls k) (k_next k) (k_ports k) (k_socks k) n (k_last k) (k_errno k) (k_stray k).
Definition set_next (n : nat) (k : kernel) : kernel :=
  Kernel (k_calls k) n (k_ports k) (k_socks k) (k_wsa k) (k_last k) (k_errno k) (k_stray k).
Definition add_stray (k : kernel) : kernel :=
  Kernel (k_calls k) (k_next k) (k_ports k) (k_socks k) (k_wsa k) (k_last k) (k_errno k) (S (k_stray k)).

Fixpoint find (h : nat) (l : list (nat * ksock)) : option ksock :=
  match l with [] => None | (n, s) :: r => if Nat.eqb n h then Some s else find h r end.
Fixpoint update (h : nat) (f : ksock -> ksock) (l : list (nat * ksock)) : list (nat * ksock) :=
  match l with [] => [] | (n, s) :: r => if Nat.eqb n h then (n, f s) :: r else (n, s) :: update h f r end.
Fixpoint remove_sock (h : nat) (l : list (nat * ksock)) : list (nat * ksock) :=
  match l with [] => [] | (n, s) :: r => if Nat.eqb n h then r else (n, s) :: remove_sock h r end.
Fixpoint remove_port (h : nat) (l : list nat) : list nat :=
  match l with [] => [] | n :: r => if Nat.eqb n h then r else n :: remove_port h r end.
Definition has (h : nat) (l : list nat) : bool := existsb (Nat.eqb h) l.

(** ** Calls of Windows *)
(** CreateIoCompletionPort(INVALID_HANDLE_VALUE, NULL, 0, 1) *)
Definition new_port (k : kernel) : option nat * kernel :=
  match fate (k_calls k) with
  | Some e => (None, set_last e (tick k))
  | None => (Some (k_next k), set_next (S (k_next k)) (set_ports (k_next k :: k_ports k) (tick k)))
  end.
(** WSAStartup: returns the error, the last error stays as it is *)
Definition wsa_startup (k : kernel) : Z * kernel :=
  match fate (k_calls k) with Some e => (e, tick k) | None => (0, set_wsa (S (k_wsa k)) (tick k)) end.
Definition wsa_cleanup (k : kernel) : kernel := set_wsa (pred (k_wsa k)) (tick k).
Definition close_port (h : nat) (k : kernel) : kernel :=
  if has h (k_ports k) then set_ports (remove_port h (k_ports k)) (tick k) else add_stray (tick k).
(** WSASocketW(family, SOCK_STREAM, 0, NULL, 0, WSA_FLAG_OVERLAPPED) *)
Definition wsa_socket (family : Z) (k : kernel) : option nat * kernel :=
  match fate (k_calls k) with
  | Some e => (None, set_last e (tick k))
  | None =>
      if Nat.eqb (k_wsa k) 0 then (None, set_last WSANOTINITIALISED (tick k))
      else (Some (k_next k), set_next (S (k_next k)) (set_socks ((k_next k, KSock family None false [] None) :: k_socks k) (tick k)))
  end.
Definition closesocket (h : nat) (k : kernel) : kernel :=
  match find h (k_socks k) with Some _ => set_socks (remove_sock h (k_socks k)) (tick k) | None => add_stray (tick k) end.
(** A call that changes an open socket, or fails; result true: done. *)
Definition on_sock (h : nat) (f : ksock -> ksock) (k : kernel) : bool * kernel :=
  match find h (k_socks k) with
  | None => (false, set_last WSAENOTSOCK (add_stray (tick k)))
  | Some _ =>
      match fate (k_calls k) with
      | Some e => (false, set_last e (tick k))
      | None => (true, set_socks (update h f (k_socks k)) (tick k))
      end
  end.
(** CreateIoCompletionPort(handle, port, key, 1): a handle belongs to at most one port. *)
Definition set_port (p : nat) (s : ksock) : ksock := KSock (k_family s) (Some p) (k_bound s) (k_opts s) (k_alive s).
Definition associate (h p : nat) (k : kernel) : bool * kernel :=
  if has p (k_ports k) then
    match find h (k_socks k) with
    | Some s => match k_port s with Some _ => (false, set_last 87 (tick k)) | None => on_sock h (set_port p) k end
    | None => on_sock h (set_port p) k
    end
  else (false, set_last ERROR_INVALID_HANDLE (add_stray (tick k))).
Definition set_opt (o : opt) (v : Z) (s : ksock) : ksock := KSock (k_family s) (k_port s) (k_bound s) ((o, v) :: k_opts s) (k_alive s).
Definition setsockopt (h : nat) (o : opt) (v : Z) (k : kernel) : bool * kernel := on_sock h (set_opt o v) k.
Definition set_alive (a : Z * Z * Z) (s : ksock) : ksock := KSock (k_family s) (k_port s) (k_bound s) (k_opts s) (Some a).
Definition set_bound (s : ksock) : ksock := KSock (k_family s) (k_port s) true (k_opts s) (k_alive s).
(** getsockname: the family; WSAEINVAL for a socket that is not bound. *)
Definition getsockname (h : nat) (k : kernel) : option Z * kernel :=
  match find h (k_socks k) with
  | None => (None, set_last WSAENOTSOCK (add_stray (tick k)))
  | Some s =>
      match fate (k_calls k) with
      | Some e => (None, set_last e (tick k))
      | None => if k_bound s then (Some (k_family s), tick k) else (None, set_last WSAEINVAL (tick k))
      end
  end.

(** ** The library *)
(** iocp.c 43-70, cio_eventloop_init; on success the completion port. *)
Definition eventloop_init (k : kernel) : (Z * option nat) * kernel :=
  match new_port k with
  | (None, k) => (((- k_last k), None), k)
  | (Some p, k) =>
      match wsa_startup k with
      | (err, k) => if err =? 0 then ((SUCCESS, Some p), k) else ((err, None), close_port p k)
      end
  end.
(** iocp.c 72-76, cio_eventloop_destroy. *)
Definition eventloop_destroy (p : nat) (k : kernel) : kernel := wsa_cleanup (close_port p k).
(** socket_utils.c 37-51, cio_windows_socket_create with iocp.c 78-85. *)
Definition socket_create (family : Z) (p : nat) (k : kernel) : option nat * kernel :=
  match wsa_socket family k with
  | (None, k) => (None, k)
  | (Some h, k) =>
      match associate h p k with
      | (true, k) => (Some h, k)
      | (false, k) => (None, closesocket h k)
      end
  end.
(** socket.c 216-238, cio_socket_init for socket and loop different from NULL; on success the handle. *)
Definition socket_init (family : Z) (p : nat) (k : kernel) : (Z * option nat) * kernel :=
  if negb ((family =? INET4) || (family =? INET6)) then ((INVALID_ARGUMENT, None), k)
  else match socket_create family p k with
  | (None, k) => (((- k_errno k), None), k)
  | (Some h, k) => ((SUCCESS, Some h), k)
  end.
(** socket.c 240-251 with 49-57, cio_socket_close without operations in flight: the hook is called. *)
Definition socket_close (h : nat) (k : kernel) : kernel := closesocket h k.
(** socket.c 347-357. *)
Definition of_bool (b : bool) : Z := if b then 1 else 0.
Definition result (r : bool * kernel) : Z * kernel := if fst r then (SUCCESS, snd r) else ((- k_last (snd r)), snd r).
Definition set_tcp_no_delay (h : nat) (on : bool) (k : kernel) : Z * kernel := result (setsockopt h ONoDelay (of_bool on) k).
(** socket.c 359-372. *)
Definition set_keep_alive (h : nat) (on : bool) (idle intvl cnt : Z) (k : kernel) : Z * kernel :=
  result (on_sock h (set_alive (of_bool on, idle, intvl)) k).
(** socket.c 379-390. *)
Definition get_address_family (h : nat) (k : kernel) : Z * kernel :=
  match getsockname h k with (Some f, k) => (f, k) | (None, k) => (UNSPEC, k) end.
(** socket.c 392-406. *)
Definition set_tcp_fast_open (h : nat) (on : bool) (k : kernel) : Z * kernel := (OPERATION_NOT_SUPPORTED, k).
(** socket.c 279-309, the bind of cio_socket_connect; the rest of it is in C64. *)
Definition connect_bind (h : nat) (k : kernel) : Z * kernel := result (on_sock h set_bound k).

(** server_socket.c 164-198, create_listen_socket with 200-226, cio_server_socket_init.  [junk] is what overlapped_operations_in_use
    of the caller's memory contains.  Result: error, handle, was the close hook called. *)
Definition server_init (family : Z) (p : nat) (junk : nat) (k : kernel) : (Z * option nat * bool) * kernel :=
  match socket_create family p k with
  | (None, k) => (((- k_last k), None, false), k)
  | (Some h, k) =>
      match on_sock h (fun s => s) k with   (* WSAIoctl(SIO_GET_EXTENSION_FUNCTION_POINTER) *)
      | (true, k) => ((SUCCESS, Some h, false), k)
      | (false, k') =>
          let err := k_last k' in
          if Nat.eqb junk 0 then (((- err), None, true), closesocket h k') else (((- err), None, false), k')
      end
  end.
(** server_socket.c 281-284 with 154-162, cio_server_socket_close without an accept in flight. *)
Definition server_close (h : nat) (k : kernel) : kernel := closesocket h k.
(** server_socket.c 254-264, 286-296, 266-279. *)
Definition server_set_reuse_address (h : nat) (on : bool) (k : kernel) : Z * kernel := result (setsockopt h OReuse (of_bool on) k).
Definition server_set_tcp_fast_open (h : nat) (on : bool) (k : kernel) : Z * kernel := result (setsockopt h OFastOpen (of_bool on) k).
Definition server_bind (h : nat) (k : kernel) : Z * kernel := result (on_sock h set_bound k).
End Fate.
