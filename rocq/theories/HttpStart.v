(** Model of starting, serving and shutting down an HTTP server, lib/src/http_server.c 726-818, on the server sockets of the three
    platforms: lib/src/platform/linux/server_socket.c 90-238 with linux/socket_utils.c 40-62; windows/server_socket.c 52-63, 76-81,
    131-298 with windows/socket_utils.c 37-51; zephyr/server_socket.c 39-75, 133-170 with zephyr/socket_utils.c 36-49.

    The kernel knows sockets; each system call may fail with an error given by the environment (a positive number).  Simplifications:
    connections that arrive are left to C43, C63 and C66, so that on Windows the only completion is that of a cancelled AcceptEx;
    the notifier of Linux is part of the kernel's socket (closing a socket removes it from the epoll instance); the numbers of sockets
    are never used again; a call with a socket that is not open fails and is counted in [stray]. *)
From Verif Require Import Base.
From Verif Require ResModel.
Open Scope Z_scope.

Inductive plat := Linux | Windows | Zephyr.
(** Address families; a UNIX address has a path, or is abstract. *)
Inductive fam := Unspec | Inet4 | Inet6 | Unix (has_path : bool).

(** error_code.h: CIO_SUCCESS, CIO_INVALID_ARGUMENT, CIO_NO_BUFFER_SPACE, CIO_OPERATION_NOT_SUPPORTED. *)
Definition SUCCESS : Z := 0.
Definition INVALID_ARGUMENT (p : plat) : Z := match p with Windows => (-10022) | _ => (-22) end.
Definition NO_BUFFER_SPACE (p : plat) : Z := match p with Windows => (-10055) | _ => (-105) end.
Definition OPERATION_NOT_SUPPORTED : Z := (-95).
Definition ENOENT : Z := 2.
Definition EBADF : Z := 9.

(** A socket of the kernel; [k_armed]: a connection is reported to the event loop (Linux: registered for reading; Windows: AcceptEx
    is pending; Zephyr: an accept callback is set). *)
Record ksock := KSock { k_for : fam; k_bound : bool; k_listening : bool; k_armed : bool; k_reuse : bool; k_fast : bool }.
Definition fresh (f : fam) : ksock := KSock f false false false false false.
Definition now_bound (k : ksock) : ksock := KSock (k_for k) true (k_listening k) (k_armed k) (k_reuse k) (k_fast k).
Definition now_listening (k : ksock) : ksock := KSock (k_for k) (k_bound k) true (k_armed k) (k_reuse k) (k_fast k).
Definition now_armed (k : ksock) : ksock := KSock (k_for k) (k_bound k) (k_listening k) true (k_reuse k) (k_fast k).
Definition now_reuse (k : ksock) : ksock := KSock (k_for k) (k_bound k) (k_listening k) (k_armed k) true (k_fast k).
Definition now_fast (k : ksock) : ksock := KSock (k_for k) (k_bound k) (k_listening k) (k_armed k) (k_reuse k) true.

(** What the application observes, newest first: results of cio_http_server_init and cio_http_server_serve, calls of
    cio_http_server_shutdown, the close hook given to it. *)
Inductive ev := EvInit (res : Z) | EvServe (res : Z) | EvShutdown | EvHook.

(** struct cio_http_server with its server socket: [endpoint]; [fd], None for INVALID_SOCKET; of Windows [bound], [acc] (accept_socket)
    and [in_use] (overlapped_operations_in_use); [hook]: close_hook is not NULL.  [pending]: an AcceptEx has not been completed,
    [cancelled]: it was cancelled. *)
Record st := St { socks : list (nat * ksock); nsock : nat; stray : nat; endpoint : fam; fd : option nat; bound : bool; acc : option nat; in_use : nat; pending : bool; cancelled : bool; hook : bool; tr : list ev }.
Definition set_socks (x : list (nat * ksock)) (s : st) : st := St x (nsock s) (stray s) (endpoint s) (fd s) (bound s) (acc s) (in_use s) (pending s) (cancelled s) (hook s) (tr s).
Definition set_nsock (x : nat) (s : st) : st := St (socks s) x (stray s) (endpoint s) (fd s) (bound s) (acc s) (in_use s) (pending s) (cancelled s) (hook s) (tr s).
Definition set_stray (x : nat) (s : st) : st := St (socks s) (nsock s) x (endpoint s) (fd s) (bound s) (acc s) (in_use s) (pending s) (cancelled s) (hook s) (tr s).
Definition set_endpoint (x : fam) (s : st) : st := St (socks s) (nsock s) (stray s) x (fd s) (bound s) (acc s) (in_use s) (pending s) (cancelled s) (hook s) (tr s).
Definition set_fd (x : option nat) (s : st) : st := St (socks s) (nsock s) (stray s) (endpoint s) x (bound s) (acc s) (in_use s) (pending s) (cancelled s) (hook s) (tr s).
Definition set_bound (x : bool) (s : st) : st := St (socks s) (nsock s) (stray s) (endpoint s) (fd s) x (acc s) (in_use s) (pending s) (cancelled s) (hook s) (tr s).
Definition set_acc (x : option nat) (s : st) : st := St (socks s) (nsock s) (stray s) (endpoint s) (fd s) (bound s) x (in_use s) (pending s) (cancelled s) (hook s) (tr s).
Definition set_in_use (x : nat) (s : st) : st := St (socks s) (nsock s) (stray s) (endpoint s) (fd s) (bound s) (acc s) x (pending s) (cancelled s) (hook s) (tr s).
Definition set_pending (x : bool) (s : st) : st := St (socks s) (nsock s) (stray s) (endpoint s) (fd s) (bound s) (acc s) (in_use s) x (cancelled s) (hook s) (tr s).
Definition set_cancelled (x : bool) (s : st) : st := St (socks s) (nsock s) (stray s) (endpoint s) (fd s) (bound s) (acc s) (in_use s) (pending s) x (hook s) (tr s).
Definition set_hook (x : bool) (s : st) : st := St (socks s) (nsock s) (stray s) (endpoint s) (fd s) (bound s) (acc s) (in_use s) (pending s) (cancelled s) x (tr s).
Definition log (e : ev) (s : st) : st := St (socks s) (nsock s) (stray s) (endpoint s) (fd s) (bound s) (acc s) (in_use s) (pending s) (cancelled s) (hook s) (e :: tr s).

Fixpoint find (h : nat) (l : list (nat * ksock)) : option ksock :=
  match l with [] => None | (n, s) :: r => if Nat.eqb n h then Some s else find h r end.
Fixpoint update (h : nat) (f : ksock -> ksock) (l : list (nat * ksock)) : list (nat * ksock) :=
  match l with [] => [] | (n, s) :: r => if Nat.eqb n h then (n, f s) :: r else (n, s) :: update h f r end.
Fixpoint remove (h : nat) (l : list (nat * ksock)) : list (nat * ksock) :=
  match l with [] => [] | (n, s) :: r => if Nat.eqb n h then r else (n, s) :: remove h r end.

(** A system call on a socket. *)
Definition on_sock (h : option nat) (f : ksock -> ksock) (err : option Z) (s : st) : Z * st :=
  match h with
  | None => (- EBADF, set_stray (S (stray s)) s)
  | Some n =>
      match find n (socks s) with
      | None => (- EBADF, set_stray (S (stray s)) s)
      | Some _ => match err with Some e => (- e, s) | None => (SUCCESS, set_socks (update n f (socks s)) s) end
      end
  end.
(** close, closesocket, net_context_put *)
Definition close_sock (h : option nat) (s : st) : st :=
  match h with
  | None => set_stray (S (stray s)) s
  | Some n => match find n (socks s) with None => set_stray (S (stray s)) s | Some _ => set_socks (remove n (socks s)) s end
  end.
(** socket, WSASocketW, net_context_get: the new socket has the number [nsock s]. *)
Definition open_sock (f : fam) (s : st) : st := set_nsock (S (nsock s)) (set_socks ((nsock s, fresh f) :: socks s) s).

(** Errors of the system calls of one call of the library, None: success. *)
Record ifate := IFate { i_socket : option Z; i_setup : option Z (* Linux: IPV6_V6ONLY; Windows: CreateIoCompletionPort *);
  i_ioctl : option Z (* Windows: WSAIoctl *); i_fast : option Z }.
Record sfate := SFate { s_reuse : option Z; s_unlink : option Z; s_bind : option Z; s_listen : option Z;
  s_add : option Z (* Linux: epoll_ctl add; Windows: WSASocketW *); s_arm : option Z (* Linux: epoll_ctl mod; Windows: AcceptEx; Zephyr: net_context_accept *) }.

(** http_server.c 726-732, server_socket_closed: the close hook of the server socket. *)
Definition server_socket_closed (s : st) : st := if hook s then log EvHook s else s.
(** windows/server_socket.c 52-63, try_free. *)
Definition try_free (s : st) : st :=
  if Nat.eqb (in_use s) 0 then
    let s := close_sock (fd s) s in
    if bound s then s else server_socket_closed s
  else s.
(** windows/server_socket.c 162-170, close_listen_socket. *)
Definition close_listen_socket (s : st) : st :=
  let s := set_cancelled true s in
  try_free (match acc s with Some a => close_sock (Some a) s | None => s end).
(** linux/server_socket.c 148-156; windows/server_socket.c 283-286; zephyr/server_socket.c 154-162. *)
Definition server_socket_close (p : plat) (s : st) : st :=
  match p with
  | Windows => close_listen_socket s
  | Linux | Zephyr => server_socket_closed (close_sock (fd s) s)
  end.

(** linux/server_socket.c 90-113 with socket_utils.c 40-62; windows/server_socket.c 172-229 with socket_utils.c 37-51;
    zephyr/server_socket.c 39-63 with socket_utils.c 36-49 (where the family of UNIX addresses is AF_UNSPEC). *)
Definition server_socket_init (p : plat) (f : fam) (i : ifate) (s : st) : Z * st :=
  match p with
  | Linux =>
      match f with
      | Unspec => (INVALID_ARGUMENT p, s)
      | _ =>
          match i_socket i with
          | Some e => (- e, s)
          | None =>
              let n := nsock s in
              let s := open_sock f s in
              match f, i_setup i with
              | Inet6, Some e => (- e, close_sock (Some n) s)
              | _, _ => (SUCCESS, set_fd (Some n) s)
              end
          end
      end
  | Windows =>
      let s := set_acc None (set_bound false s) in
      match i_socket i with
      | Some e => (- e, set_fd None s)
      | None =>
          let n := nsock s in
          let s := open_sock f s in
          match i_setup i with
          | Some e => (- e, set_fd None (close_sock (Some n) s))
          | None =>
              let s := set_cancelled false (set_fd (Some n) s) in
              match i_ioctl i with
              | Some e => (- e, close_listen_socket s)
              | None => (SUCCESS, set_in_use 0 s)
              end
          end
      end
  | Zephyr =>
      match f with
      | Unspec | Unix _ => (INVALID_ARGUMENT p, s)
      | _ =>
          match i_socket i with
          | Some e => (- e, s)
          | None => (SUCCESS, set_fd (Some (nsock s)) (open_sock f s))
          end
      end
  end.
(** linux/server_socket.c 224-238; windows/server_socket.c 288-298; zephyr/server_socket.c 164-170. *)
Definition set_tcp_fast_open (p : plat) (err : option Z) (s : st) : Z * st :=
  match p with Zephyr => (OPERATION_NOT_SUPPORTED, s) | _ => on_sock (fd s) now_fast err s end.
(** linux/server_socket.c 212-222; windows/server_socket.c 255-265; zephyr/server_socket.c 65-71. *)
Definition set_reuse_address (p : plat) (err : option Z) (s : st) : Z * st :=
  match p with Zephyr => (OPERATION_NOT_SUPPORTED, s) | _ => on_sock (fd s) now_reuse err s end.
(** linux/server_socket.c 158-210; windows/server_socket.c 267-281; zephyr/server_socket.c 73-92. *)
Definition server_socket_bind (p : plat) (a : fam) (r : sfate) (s : st) : Z * st :=
  match p with
  | Linux =>
      match a with
      | Unspec => (INVALID_ARGUMENT p, s)
      | _ =>
          match a, s_unlink r with
          | Unix true, Some e => if e =? ENOENT then on_sock (fd s) now_bound (s_bind r) s else (- e, s)
          | _, _ => on_sock (fd s) now_bound (s_bind r) s
          end
      end
  | Windows =>
      let (e, s) := on_sock (fd s) now_bound (s_bind r) s in
      if e =? SUCCESS then (e, set_bound true s) else (e, s)
  | Zephyr =>
      match a with Unspec | Unix _ => (INVALID_ARGUMENT p, s) | _ => on_sock (fd s) now_bound (s_bind r) s end
  end.
(** windows/server_socket.c 131-160, prepare_accept_socket; using the OVERLAPPED of a pending AcceptEx again counts as a stray use. *)
Definition prepare_accept_socket (r : sfate) (s : st) : Z * st :=
  match s_add r with
  | Some e => (- e, set_acc None s)
  | None =>
      let n := nsock s in
      let s := set_acc (Some n) (open_sock (endpoint s) s) in
      let s := if pending s then set_stray (S (stray s)) s else s in
      let (e, s) := on_sock (fd s) now_armed (s_arm r) s in
      if e =? SUCCESS then (SUCCESS, set_pending true (set_in_use (S (in_use s)) s))
      else (e, close_sock (Some n) s)
  end.
(** linux/server_socket.c 115-146; windows/server_socket.c 231-253; zephyr/server_socket.c 133-152 (the result of
    net_context_accept is not used). *)
Definition server_socket_accept (p : plat) (r : sfate) (s : st) : Z * st :=
  match p with
  | Linux =>
      let (e, s) := on_sock (fd s) now_listening (s_listen r) s in
      if negb (e =? SUCCESS) then (e, s)
      else match s_add r with Some e => (- e, s) | None => on_sock (fd s) now_armed (s_arm r) s end
  | Windows =>
      if bound s then
        let (e, s) := on_sock (fd s) now_listening (s_listen r) s in
        if negb (e =? SUCCESS) then (e, s) else prepare_accept_socket r s
      else (SUCCESS, s)
  | Zephyr =>
      let (e, s) := on_sock (fd s) now_listening (s_listen r) s in
      if negb (e =? SUCCESS) then (e, s)
      else (SUCCESS, snd (on_sock (fd s) now_armed (s_arm r) s))
  end.

(** The configuration (http_server.h 102-150): all pointers are set and the other timeouts are not 0; read_header_timeout_ns; the
    endpoint; use_tcp_fastopen. *)
Record config := Config { valid : bool; header_timeout : N; at_ : fam; fastopen : bool }.
(** http_server.c 736-775, cio_http_server_init; 758-762 is [ResModel.keepalive_fits]. *)
Definition http_server_init (p : plat) (c : config) (i : ifate) (s : st) : Z * st :=
  if negb (valid c) || (header_timeout c =? 0)%N then (INVALID_ARGUMENT p, s)
  else
    let s := set_endpoint (at_ c) (set_hook false s) in
    if negb (ResModel.keepalive_fits (header_timeout c)) then (NO_BUFFER_SPACE p, s)
    else
      let (e, s) := server_socket_init p (at_ c) i s in
      if negb (e =? SUCCESS) then (e, s)
      else if fastopen c then set_tcp_fast_open p (i_fast i) s else (SUCCESS, s).
(** http_server.c 777-799, cio_http_server_serve. *)
Definition http_server_serve (p : plat) (r : sfate) (s : st) : Z * st :=
  let (e, s) := set_reuse_address p (s_reuse r) s in
  if negb (e =? SUCCESS) then (e, server_socket_close p s)
  else
    let (e, s) := server_socket_bind p (endpoint s) r s in
    if negb (e =? SUCCESS) then (e, server_socket_close p s)
    else
      let (e, s) := server_socket_accept p r s in
      if negb (e =? SUCCESS) then (e, server_socket_close p s) else (e, s).
(** http_server.c 813-818, cio_http_server_shutdown; [h]: with a close hook. *)
Definition http_server_shutdown (p : plat) (h : bool) (s : st) : st := server_socket_close p (set_hook h s).
(** windows/server_socket.c 65-82: the loop dispatches the completion of the cancelled AcceptEx. *)
Definition aborted (s : st) : st := try_free (set_bound false (set_in_use (pred (in_use s)) (set_pending false s))).

Inductive act := AInit (c : config) (i : ifate) | AServe (r : sfate) | AShutdown (with_hook : bool) | AAborted.
Definition pos (o : option Z) : Prop := match o with Some e => 0 < e | None => True end.
Definition enabled (p : plat) (s : st) (a : act) : Prop :=
  match a with
  | AInit _ i => pos (i_socket i) /\ pos (i_setup i) /\ pos (i_ioctl i) /\ pos (i_fast i)
  | AServe r => pos (s_reuse r) /\ pos (s_unlink r) /\ pos (s_bind r) /\ pos (s_listen r) /\ pos (s_add r) /\ pos (s_arm r)
  | AShutdown _ => True
  | AAborted => p = Windows /\ pending s = true /\ cancelled s = true
  end.
Definition step (p : plat) (s : st) (a : act) : st :=
  match a with
  | AInit c i => let (e, s) := http_server_init p c i s in log (EvInit e) s
  | AServe r => let (e, s) := http_server_serve p r s in log (EvServe e) s
  | AShutdown h => http_server_shutdown p h (log EvShutdown s)
  | AAborted => aborted s
  end.
(** Memory in which nothing was written yet: the counter and the hook have any value. *)
Definition start (junk : nat) (junk_hook : bool) : st := St [] 0 0 Unspec None false None junk false false junk_hook [].
Inductive reach (p : plat) (user : st -> act -> Prop) : st -> Prop :=
| reach_start j h : reach p user (start j h)
| reach_step s a : reach p user s -> enabled p s a -> user s a -> reach p user (step p s a).
Definition anything (s : st) (a : act) : Prop := True.
