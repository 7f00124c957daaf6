(** Model of how the Linux port acquires and releases kernel objects: socket_utils.c,
    timer.c (init, close), socket.c (init, immediate close, options), server_socket.c (init, accept, options,
    close), epoll.c (init, destroy, add, register, remove), uart.c (init, close) and http_server.c
    (init, serve, shutdown), against a kernel in which every single call may fail.

    The kernel knows which descriptors are open, what is set on them, which descriptor is
    watched by which epoll instance, and errno.  Simplified: descriptor numbers are never reused, so
    that each use of a descriptor that is not open can be seen (it is recorded in [stray]);
    watching is reduced to the interest in EPOLLIN; arguments are non-NULL pointers;
    the pending events of the loop are in EpollModel; addresses are in AddressModel; the
    settings of a UART are in UartModel. *)
From Verif Require Import Base.

Inductive kind := KSocket | KTimer | KEpoll | KEvent | KTty.
(** The socket options the library sets, with their level left out. *)
Inductive sockopt := V6Only | ReuseAddr | FastOpen | FastOpenConnect | NoDelay | KeepAlive | KeepIdle | KeepIntvl | KeepCnt | Linger.
(** A descriptor: its kind, O_NONBLOCK, O_CLOEXEC, its domain (sockets) and the options set, latest first. *)
Record desc := Desc { d_kind : kind; d_nonblock : bool; d_cloexec : bool; d_domain : Z; d_opts : list (sockopt * Z) }.
Record kernel := Kern {
  opened : list (nat * desc);             (* open descriptors *)
  watched : list (nat * nat * bool);      (* epoll instance, descriptor, interest in EPOLLIN *)
  newfd : nat;                            (* the next descriptor number *)
  calls : nat;                            (* number of calls made so far *)
  errno : Z;
  stray : list nat }.                     (* descriptors used although they are not open *)

Definition is_open (k : kernel) (fd : nat) : bool := existsb (fun p => Nat.eqb (fst p) fd) (opened k).
Definition is_watched (k : kernel) (ep fd : nat) : bool :=
  existsb (fun p => Nat.eqb (fst (fst p)) ep && Nat.eqb (snd (fst p)) fd)%bool (watched k).

(** A C function of the library: it runs on a kernel and gives a result. *)
Definition M (A : Type) := kernel -> A * kernel.
Definition ret {A} (a : A) : M A := fun k => (a, k).
Definition bind {A B} (m : M A) (f : A -> M B) : M B := fun k => let '(a, k') := m k in f a k'.
Declare Scope res_scope.
Notation "x <- m ;; f" := (bind m (fun x => f)) (at level 100, m at next level, right associativity) : res_scope.
Notation "m ;;; f" := (bind m (fun _ => f)) (at level 100, right associativity) : res_scope.
Open Scope res_scope.

Definition EBADF : Z := 9%Z.
Definition EEXIST : Z := 17%Z.
Definition ENOENT : Z := 2%Z.
Definition EINVAL : Z := 22%Z.
Definition CIO_SUCCESS : Z := 0%Z.
Definition CIO_INVALID_ARGUMENT : Z := (-22)%Z.
Definition CIO_NO_BUFFER_SPACE : Z := (-105)%Z.
(** linux/address_family_impl.h 38-43: AF_UNSPEC, AF_UNIX, AF_INET, AF_INET6. *)
Definition UNSPEC : Z := 0%Z.
Definition UNIX : Z := 1%Z.
Definition INET4 : Z := 2%Z.
Definition INET6 : Z := 10%Z.

Definition set_errno (e : Z) (k : kernel) := Kern (opened k) (watched k) (newfd k) (calls k) e (stray k).
Definition tick (k : kernel) := Kern (opened k) (watched k) (newfd k) (S (calls k)) (errno k) (stray k).
Definition note_stray (fd : nat) (k : kernel) := Kern (opened k) (watched k) (newfd k) (calls k) EBADF (stray k ++ [fd]).

Section Kernel.
(** [fate n] decides the n-th call: None: the kernel does what is asked; Some e: it fails with e. *)
Variable fate : nat -> option Z.

(** socket, accept4, timerfd_create, epoll_create1, eventfd, open. *)
Definition sys_create (d : desc) : M (option nat) := fun k =>
  match fate (calls k) with
  | Some e => (None, set_errno e (tick k))
  | None => (Some (newfd k), Kern ((newfd k, d) :: opened k) (watched k) (S (newfd k)) (S (calls k)) (errno k) (stray k))
  end.
(** Calls that use one descriptor and change nothing the model keeps: tcgetattr, tcflush, tcsetattr, listen, bind,
    timerfd_settime. *)
Definition sys_plain (fd : nat) : M bool := fun k =>
  if negb (is_open k fd) then (false, note_stray fd (tick k))
  else match fate (calls k) with
  | Some e => (false, set_errno e (tick k))
  | None => (true, tick k)
  end.
(** Calls that use no descriptor: unlink, cfsetspeed. *)
Definition sys_none : M bool := fun k =>
  match fate (calls k) with
  | Some e => (false, set_errno e (tick k))
  | None => (true, tick k)
  end.
Definition add_opt (fd : nat) (o : sockopt) (v : Z) (p : nat * desc) : nat * desc :=
  let '(n, d) := p in
  if Nat.eqb n fd then (n, Desc (d_kind d) (d_nonblock d) (d_cloexec d) (d_domain d) ((o, v) :: d_opts d)) else p.
Definition sys_setsockopt (fd : nat) (o : sockopt) (v : Z) : M bool := fun k =>
  if negb (is_open k fd) then (false, note_stray fd (tick k))
  else match fate (calls k) with
  | Some e => (false, set_errno e (tick k))
  | None => (true, Kern (map (add_opt fd o v) (opened k)) (watched k) (newfd k) (S (calls k)) (errno k) (stray k))
  end.
(** The descriptor is released even if close reports an error. *)
Definition sys_close (fd : nat) : M unit := fun k =>
  if negb (is_open k fd) then (tt, note_stray fd (tick k))
  else
    let k' := Kern (filter (fun p => negb (Nat.eqb (fst p) fd)) (opened k))
                   (filter (fun p => negb (Nat.eqb (fst (fst p)) fd) && negb (Nat.eqb (snd (fst p)) fd))%bool (watched k))
                   (newfd k) (S (calls k)) (errno k) (stray k) in
    (tt, match fate (calls k) with Some e => set_errno e k' | None => k' end).
Inductive ctl := CtlAdd | CtlMod (inp : bool) | CtlDel.
Definition sys_epoll_ctl (ep fd : nat) (c : ctl) : M bool := fun k =>
  if negb (is_open k ep) then (false, note_stray ep (tick k))
  else if negb (is_open k fd) then (false, note_stray fd (tick k))
  else match fate (calls k) with
  | Some e => (false, set_errno e (tick k))
  | None =>
    let there := is_watched k ep fd in
    let hit := fun p : nat * nat * bool => (Nat.eqb (fst (fst p)) ep && Nat.eqb (snd (fst p)) fd)%bool in
    match c with
    | CtlAdd => if there then (false, set_errno EEXIST (tick k))
                else (true, Kern (opened k) ((ep, fd, false) :: watched k) (newfd k) (S (calls k)) (errno k) (stray k))
    | CtlMod b => if negb there then (false, set_errno ENOENT (tick k))
                  else (true, Kern (opened k) (map (fun p => if hit p then (ep, fd, b) else p) (watched k)) (newfd k) (S (calls k)) (errno k) (stray k))
    | CtlDel => if negb there then (false, set_errno ENOENT (tick k))
                else (true, Kern (opened k) (filter (fun p => negb (hit p)) (watched k)) (newfd k) (S (calls k)) (errno k) (stray k))
    end
  end.

(** (enum cio_error)(-errno). *)
Definition minus_errno : M Z := fun k => ((- errno k)%Z, k).
Definition or_errno (b : bool) : M Z := if b then ret CIO_SUCCESS else minus_errno.

(** epoll.c 115-127. *)
Definition eventloop_add (ep fd : nat) : M Z := b <- sys_epoll_ctl ep fd CtlAdd ;; or_errno b.
(** epoll.c 129-133 (with 52-63). *)
Definition register_read (ep fd : nat) : M Z := b <- sys_epoll_ctl ep fd (CtlMod true) ;; or_errno b.
(** epoll.c 135-139. *)
Definition unregister_read (ep fd : nat) : M Z := b <- sys_epoll_ctl ep fd (CtlMod false) ;; or_errno b.
(** epoll.c 153-160; the result of epoll_ctl is ignored. *)
Definition eventloop_remove (ep fd : nat) : M unit := sys_epoll_ctl ep fd CtlDel ;;; ret tt.

Record loop := Loop { l_ep : nat; l_stop : nat }.
(** epoll.c 65-105. *)
Definition eventloop_init : M (Z * option loop) :=
  oep <- sys_create (Desc KEpoll false true 0 []) ;;
  match oep with
  | None => e <- minus_errno ;; ret (e, None)
  | Some ep =>
    ofd <- sys_create (Desc KEvent true false 0 []) ;;
    match ofd with
    | None => e <- minus_errno ;; sys_close ep ;;; ret (e, None)
    | Some fd =>
      e <- eventloop_add ep fd ;;
      if negb (Z.eqb e CIO_SUCCESS) then sys_close fd ;;; sys_close ep ;;; ret (e, None)
      else
        e <- register_read ep fd ;;
        if negb (Z.eqb e CIO_SUCCESS) then eventloop_remove ep fd ;;; sys_close fd ;;; sys_close ep ;;; ret (e, None)
        else ret (CIO_SUCCESS, Some (Loop ep fd))
    end
  end.
(** epoll.c 107-113. *)
Definition eventloop_destroy (l : loop) : M unit :=
  unregister_read (l_ep l) (l_stop l) ;;; eventloop_remove (l_ep l) (l_stop l) ;;; sys_close (l_stop l) ;;; sys_close (l_ep l).

(** struct cio_timer: its loop and its descriptor. *)
Record timer := Timer { t_ep : nat; t_fd : nat }.
(** timer.c 80-114. *)
Definition timer_init (ep : nat) : M (Z * option timer) :=
  ofd <- sys_create (Desc KTimer true false 0 []) ;;
  match ofd with
  | None => e <- minus_errno ;; ret (e, None)
  | Some fd =>
    e <- eventloop_add ep fd ;;
    if negb (Z.eqb e CIO_SUCCESS) then sys_close fd ;;; ret (e, None)
    else
      e <- register_read ep fd ;;
      if negb (Z.eqb e CIO_SUCCESS) then eventloop_remove ep fd ;;; sys_close fd ;;; ret (e, None)
      else ret (e, Some (Timer ep fd))
  end.
(** timer.c 152-163 with cio_timer_cancel (134-150); [armed]: a handler is set.  The handler's own actions are not part
    of this model. *)
Definition timer_close (t : timer) (armed : bool) : M unit :=
  eventloop_remove (t_ep t) (t_fd t) ;;; (if armed then sys_plain (t_fd t) ;;; ret tt else ret tt) ;;; sys_close (t_fd t).

(** socket_utils.c 40-62. *)
Definition socket_create (family : Z) : M (option nat) :=
  if Z.eqb family UNSPEC then fun k => (None, set_errno EINVAL k)
  else
    ofd <- sys_create (Desc KSocket true true family []) ;;
    match ofd with
    | None => ret None
    | Some fd =>
      if Z.eqb family INET6 then
        b <- sys_setsockopt fd V6Only 1 ;;
        if b then ret (Some fd) else sys_close fd ;;; ret None
      else ret (Some fd)
    end.

(** struct cio_socket: loop, descriptor, close timer. *)
Record sock := Sock { s_ep : nat; s_fd : nat; s_timer : timer }.
(** socket.c 241-276. *)
Definition linux_socket_init (fd ep : nat) : M (Z * option sock) :=
  r <- timer_init ep ;;
  match r with
  | (e, Some t) =>
    e <- eventloop_add ep fd ;;
    if negb (Z.eqb e CIO_SUCCESS) then timer_close t false ;;; ret (e, None)
    else ret (CIO_SUCCESS, Some (Sock ep fd t))
  | (e, None) => ret (e, None)
  end.
(** socket.c 278-299. *)
Definition socket_init (family : Z) (ep : nat) : M (Z * option sock) :=
  ofd <- socket_create family ;;
  match ofd with
  | None => e <- minus_errno ;; ret (e, None)
  | Some fd =>
    r <- linux_socket_init fd ep ;;
    match r with
    | (e, Some s) => ret (e, Some s)
    | (e, None) => sys_close fd ;;; ret (e, None)
    end
  end.
(** socket.c 93-108 (close_and_call_hook, close_socket) and, if [rst], 110-119 (reset_connection); [armed]: the close timer runs.
    Every way of closing a socket ends here (C42). *)
Definition socket_close (s : sock) (rst armed : bool) : M unit :=
  (if rst then sys_setsockopt (s_fd s) Linger 0 ;;; ret tt else ret tt) ;;;
  unregister_read (s_ep s) (s_fd s) ;;; eventloop_remove (s_ep s) (s_fd s) ;;;
  timer_close (s_timer s) armed ;;; sys_close (s_fd s).
(** socket.c 416-426. *)
Definition socket_set_tcp_no_delay (s : sock) (on : bool) : M Z :=
  b <- sys_setsockopt (s_fd s) NoDelay (if on then 1 else 0) ;; or_errno b.
(** socket.c 428-452. *)
Definition socket_set_keep_alive (s : sock) (on : bool) (idle intvl cnt : Z) : M Z :=
  if on then
    b <- sys_setsockopt (s_fd s) KeepIdle idle ;;
    if negb b then minus_errno
    else
      b <- sys_setsockopt (s_fd s) KeepIntvl intvl ;;
      if negb b then minus_errno
      else
        b <- sys_setsockopt (s_fd s) KeepCnt cnt ;;
        if negb b then minus_errno
        else b <- sys_setsockopt (s_fd s) KeepAlive 1 ;; or_errno b
  else b <- sys_setsockopt (s_fd s) KeepAlive 0 ;; or_errno b.
(** socket.c 454-463. *)
Definition socket_set_tcp_fast_open (s : sock) (on : bool) : M Z :=
  b <- sys_setsockopt (s_fd s) FastOpenConnect (if on then 1 else 0) ;; or_errno b.

(** struct cio_server_socket: loop and descriptor. *)
Record server := Server { v_ep : nat; v_fd : nat }.
(** server_socket.c 90-113. *)
Definition server_socket_init (family : Z) (ep : nat) : M (Z * option server) :=
  ofd <- socket_create family ;;
  match ofd with
  | None => e <- minus_errno ;; ret (e, None)
  | Some fd => ret (CIO_SUCCESS, Some (Server ep fd))
  end.
(** server_socket.c 115-146. *)
Definition server_socket_accept (v : server) : M Z :=
  b <- sys_plain (v_fd v) ;;
  if negb b then minus_errno
  else
    e <- eventloop_add (v_ep v) (v_fd v) ;;
    if negb (Z.eqb e CIO_SUCCESS) then ret e else register_read (v_ep v) (v_fd v).
(** server_socket.c 148-156. *)
Definition server_socket_close (v : server) : M unit :=
  eventloop_remove (v_ep v) (v_fd v) ;;; sys_close (v_fd v).
(** server_socket.c 184-210; [uds]: the address is the path of a UNIX socket, whose file is removed first
    (C50 has the details of addresses). *)
Definition server_socket_bind (v : server) (family : Z) (uds : bool) : M Z :=
  if Z.eqb family UNSPEC then ret CIO_INVALID_ARGUMENT
  else
    e <- (if (uds && Z.eqb family UNIX)%bool then
            b <- sys_none ;; e <- or_errno b ;; ret (if Z.eqb e (- ENOENT) then CIO_SUCCESS else e)
          else ret CIO_SUCCESS) ;;
    if negb (Z.eqb e CIO_SUCCESS) then ret e
    else b <- sys_plain (v_fd v) ;; or_errno b.
(** server_socket.c 212-222. *)
Definition server_socket_set_reuse_address (v : server) (on : bool) : M Z :=
  b <- sys_setsockopt (v_fd v) ReuseAddr (if on then 1 else 0) ;; or_errno b.
(** server_socket.c 224-238; linux/defaults.cmake 30: the queue has 5 elements by default. *)
Definition server_socket_set_tcp_fast_open (v : server) (on : bool) : M Z :=
  b <- sys_setsockopt (v_fd v) FastOpen (if on then 5 else 0) ;; or_errno b.
(** server_socket.c 60-87; [mem]: alloc_client delivers a client.  The result is the socket passed to the accept handler.
    The accepted descriptor inherits the options of the listening one, of which only V6Only is kept.
    The handler's own actions are not part of this model. *)
Definition accept_callback (v : server) (domain : Z) (mem : bool) : M (Z * option sock) :=
  ofd <- sys_create (Desc KSocket true true domain (if Z.eqb domain INET6 then [(V6Only, 1%Z)] else [])) ;;
  match ofd with
  | None => e <- minus_errno ;; ret (e, None)
  | Some fd =>
    if negb mem then sys_close fd ;;; ret ((-12)%Z, None)
    else
      r <- linux_socket_init fd (v_ep v) ;;
      match r with
      | (e, Some s) => ret (e, Some s)
      | (e, None) => sys_close fd ;;; ret (e, None)
      end
  end.

Record port := Port { p_ep : nat; p_fd : nat }.
(** uart.c 267-336 (with 168-177, 253-265). *)
Definition uart_init (ep : nat) : M (Z * option port) :=
  ofd <- sys_create (Desc KTty true true 0 []) ;;
  match ofd with
  | None => e <- minus_errno ;; ret (e, None)
  | Some fd =>
    b <- sys_plain fd ;;                                  (* tcgetattr *)
    if negb b then e <- minus_errno ;; ret (e, None)
    else
      b <- sys_none ;;                                    (* cfsetspeed *)
      if negb b then e <- minus_errno ;; sys_close fd ;;; ret (e, None)
      else
        b <- sys_plain fd ;;                              (* tcflush *)
        e <- or_errno b ;;
        e <- (if negb (Z.eqb e CIO_SUCCESS) then ret e else b <- sys_plain fd ;; or_errno b) ;; (* tcsetattr *)
        if negb (Z.eqb e CIO_SUCCESS) then sys_close fd ;;; ret (e, None)
        else
          e <- eventloop_add ep fd ;;
          if negb (Z.eqb e CIO_SUCCESS) then sys_close fd ;;; ret (e, None)
          else
            e <- register_read ep fd ;;
            if negb (Z.eqb e CIO_SUCCESS) then eventloop_remove ep fd ;;; sys_close fd ;;; ret (e, None)
            else ret (CIO_SUCCESS, Some (Port ep fd))
  end.
(** uart.c 338-353. *)
Definition uart_close (p : port) : M unit :=
  sys_close (p_fd p) ;;; unregister_read (p_ep p) (p_fd p) ;;; eventloop_remove (p_ep p) (p_fd p).

(** The parts of struct cio_http_server_configuration (http_server.h 102-150) that decide what cio_http_server_init does:
    all callbacks are set, the timeouts (nanoseconds), the family of the endpoint, its path (if it is one), use_tcp_fastopen. *)
Record http_config := HttpConfig {
  callbacks_set : bool; header_timeout : N; body_timeout : N; response_timeout : N;
  family : Z; path : bool; use_fastopen : bool }.
(** Number of decimal digits of a uint32_t. *)
Definition digits32 (n : N) : N :=
  if (n <? 10)%N then 1 else if (n <? 100)%N then 2 else if (n <? 1000)%N then 3 else if (n <? 10000)%N then 4
  else if (n <? 100000)%N then 5 else if (n <? 1000000)%N then 6 else if (n <? 10000000)%N then 7
  else if (n <? 100000000)%N then 8 else if (n <? 1000000000)%N then 9 else 10.
(** http_server.c 758-762: the length of the keep-alive header (20 characters, the number, CR LF) against its
    buffer of 33 bytes. *)
Definition keepalive_fits (ns : N) : bool := (20 + digits32 (ns / 1000000000 mod 2 ^ 32) + 2 <? 33 - 1)%N.
(** http_server.c 736-775. *)
Definition http_server_init (c : http_config) (ep : nat) : M (Z * option server) :=
  if (negb (callbacks_set c) || (header_timeout c =? 0) || (body_timeout c =? 0) || (response_timeout c =? 0))%N%bool
  then ret (CIO_INVALID_ARGUMENT, None)
  else if negb (keepalive_fits (header_timeout c)) then ret (CIO_NO_BUFFER_SPACE, None)
  else
    r <- server_socket_init (family c) ep ;;
    match r with
    | (e, None) => ret (e, None)
    | (_, Some v) =>
      if use_fastopen c then
        e <- server_socket_set_tcp_fast_open v true ;;
        ret (e, if Z.eqb e CIO_SUCCESS then Some v else None)
      else ret (CIO_SUCCESS, Some v)
    end.
(** http_server.c 777-799; the result None: the server socket was closed. *)
Definition http_server_serve (c : http_config) (v : server) : M (Z * option server) :=
  e <- server_socket_set_reuse_address v true ;;
  if negb (Z.eqb e CIO_SUCCESS) then server_socket_close v ;;; ret (e, None)
  else
    e <- server_socket_bind v (family c) (path c) ;;
    if negb (Z.eqb e CIO_SUCCESS) then server_socket_close v ;;; ret (e, None)
    else
      e <- server_socket_accept v ;;
      if negb (Z.eqb e CIO_SUCCESS) then server_socket_close v ;;; ret (e, None)
      else ret (e, Some v).
(** http_server.c 813-818. *)
Definition http_server_shutdown (v : server) : M Z := server_socket_close v ;;; ret CIO_SUCCESS.
End Kernel.
