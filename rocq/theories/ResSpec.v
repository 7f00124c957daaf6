(** What an application relies on when objects of the library are created and destroyed. *)
From Verif Require Import Base ResModel.
From Coq Require Import Permutation.

(** Errors of calls are positive numbers. *)
Definition real (fate : nat -> option Z) : Prop := forall n e, fate n = Some e -> (0 < e)%Z.

(** The numbers of the open descriptors. *)
Definition fds (k : kernel) : list nat := map fst (opened k).
(** A kernel that can occur: each descriptor is open once, new numbers are new, only open descriptors are watched. *)
Definition sane (k : kernel) : Prop :=
  NoDup (fds k) /\ (forall fd, In fd (fds k) -> fd < newfd k) /\
  (forall ep fd b, In (ep, fd, b) (watched k) -> In ep (fds k) /\ In fd (fds k)).

(** Nothing was left behind: the same descriptors are open with the same settings, the same ones are watched, and no descriptor
    was used that was not open. *)
Definition untouched (k k' : kernel) : Prop :=
  opened k' = opened k /\ watched k' = watched k /\ stray k' = stray k.

(** Exactly the descriptors of [l] were closed, and everything else is as before. *)
Definition kept (l : list nat) (fd : nat) : bool := negb (existsb (Nat.eqb fd) l).
Definition gone (l : list nat) (k k' : kernel) : Prop :=
  opened k' = filter (fun p => kept l (fst p)) (opened k) /\
  watched k' = filter (fun p => kept l (fst (fst p)) && kept l (snd (fst p)))%bool (watched k) /\
  stray k' = stray k.

(** The value an option of a descriptor has. *)
Fixpoint value (o : sockopt) (l : list (sockopt * Z)) : option Z :=
  match l with
  | [] => None
  | (o', v) :: r => match o, o' with
    | V6Only, V6Only | ReuseAddr, ReuseAddr | FastOpen, FastOpen | FastOpenConnect, FastOpenConnect | NoDelay, NoDelay
    | KeepAlive, KeepAlive | KeepIdle, KeepIdle | KeepIntvl, KeepIntvl | KeepCnt, KeepCnt | Linger, Linger => Some v
    | _, _ => value o r
    end
  end.
Fixpoint find_fd (fd : nat) (l : list (nat * desc)) : option desc :=
  match l with [] => None | (n, d) :: r => if Nat.eqb n fd then Some d else find_fd fd r end.
Definition option_of (k : kernel) (fd : nat) (o : sockopt) : option Z :=
  match find_fd fd (opened k) with Some d => value o (d_opts d) | None => None end.
Definition domain_of (k : kernel) (fd : nat) : Z :=
  match find_fd fd (opened k) with Some d => d_domain d | None => UNSPEC end.

(** ** Histories: an application creates and destroys objects, in any order, while any call of the kernel may fail. *)
Inductive obj := ObLoop (l : loop) | ObTimer (t : timer) | ObSock (s : sock) | ObServer (v : server) | ObHttp (c : http_config) (v : server).
(** The descriptors an object owns, and the event loop it uses. *)
Definition owns (o : obj) : list nat :=
  match o with
  | ObLoop l => [l_stop l; l_ep l]
  | ObTimer t => [t_fd t]
  | ObSock s => [t_fd (s_timer s); s_fd s]
  | ObServer v | ObHttp _ v => [v_fd v]
  end.
Definition uses (o : obj) : list nat :=
  match o with
  | ObLoop _ => []
  | ObTimer t => [t_ep t]
  | ObSock s => [s_ep s; t_ep (s_timer s)]
  | ObServer v | ObHttp _ v => [v_ep v]
  end.
Record world := World { kern : kernel; live : list obj }.

Inductive act :=
| ANewLoop                                    (* cio_eventloop_init *)
| ANewTimer (ep : nat)                        (* cio_timer_init *)
| ANewSocket (family : Z) (ep : nat)          (* cio_socket_init *)
| ANewServer (family : Z) (ep : nat)          (* cio_server_socket_init *)
| ANewHttp (c : http_config) (ep : nat)       (* cio_http_server_init *)
| AListen (i : nat)                           (* cio_server_socket_accept *)
| AServe (i : nat)                            (* cio_http_server_serve *)
| AAccept (i : nat) (mem : bool)              (* the loop calls the server's accept callback *)
| AReuse (i : nat) (on : bool)                (* cio_server_socket_set_reuse_address *)
| AFast (i : nat) (on : bool)                 (* cio_server_socket_set_tcp_fast_open *)
| ABind (i : nat) (family : Z) (uds : bool)   (* cio_server_socket_bind *)
| ANoDelay (i : nat) (on : bool)              (* cio_socket_set_tcp_no_delay *)
| AKeepAlive (i : nat) (on : bool) (a b c : Z)(* cio_socket_set_keep_alive *)
| AClose (i : nat) (rst armed : bool).        (* destroy, close, shutdown *)

Fixpoint drop {A} (i : nat) (l : list A) : list A :=
  match l, i with [], _ => [] | _ :: r, 0 => r | a :: r, S i => a :: drop i r end.
Definition keep_new {A} (f : A -> obj) (l : list obj) (r : (Z * option A) * kernel) : world :=
  match r with ((_, Some a), k) => World k (f a :: l) | ((_, None), k) => World k l end.
Definition server_of (o : obj) : option server := match o with ObServer v | ObHttp _ v => Some v | _ => None end.

Definition step (fate : nat -> option Z) (w : world) (a : act) : world :=
  let k := kern w in
  let on_server i (f : server -> M Z) :=
    match nth_error (live w) i with
    | Some o => match server_of o with Some v => World (snd (f v k)) (live w) | None => w end
    | None => w
    end in
  let on_sock i (f : sock -> M Z) :=
    match nth_error (live w) i with Some (ObSock s) => World (snd (f s k)) (live w) | _ => w end in
  match a with
  | ANewLoop => keep_new ObLoop (live w) (eventloop_init fate k)
  | ANewTimer ep => keep_new ObTimer (live w) (timer_init fate ep k)
  | ANewSocket f ep => keep_new ObSock (live w) (socket_init fate f ep k)
  | ANewServer f ep => keep_new ObServer (live w) (server_socket_init fate f ep k)
  | ANewHttp c ep => keep_new (ObHttp c) (live w) (http_server_init fate c ep k)
  | AListen i => on_server i (server_socket_accept fate)
  | AReuse i on => on_server i (fun v => server_socket_set_reuse_address fate v on)
  | AFast i on => on_server i (fun v => server_socket_set_tcp_fast_open fate v on)
  | ABind i f u => on_server i (fun v => server_socket_bind fate v f u)
  | ANoDelay i on => on_sock i (fun s => socket_set_tcp_no_delay fate s on)
  | AKeepAlive i on x y z => on_sock i (fun s => socket_set_keep_alive fate s on x y z)
  | AServe i => match nth_error (live w) i with
    | Some (ObHttp c v) => match http_server_serve fate c v k with
      | ((_, Some _), k') => World k' (live w)
      | ((_, None), k') => World k' (drop i (live w))
      end
    | _ => w
    end
  | AAccept i mem => match nth_error (live w) i with
    | Some o => match server_of o with
      | Some v => keep_new ObSock (live w) (accept_callback fate v (domain_of k (v_fd v)) mem k)
      | None => w
      end
    | None => w
    end
  | AClose i rst armed => match nth_error (live w) i with
    | Some o => World (snd (match o with
        | ObLoop l => eventloop_destroy fate l k
        | ObTimer t => timer_close fate t armed k
        | ObSock s => socket_close fate s rst armed k
        | ObServer v => server_socket_close fate v k
        | ObHttp _ v => let (_, k') := http_server_shutdown fate v k in (tt, k')
        end)) (drop i (live w))
    | None => w
    end
  end.

(** What is asked of the application: an object is given an event loop that exists, and an event loop is destroyed only
    after everything that uses it.  HTTP servers do not ask for TCP fast open. *)
Definition orderly (w : world) (a : act) : Prop :=
  match a with
  | ANewTimer ep | ANewSocket _ ep | ANewServer _ ep => exists l, In (ObLoop l) (live w) /\ l_ep l = ep
  | ANewHttp c ep => use_fastopen c = false /\ exists l, In (ObLoop l) (live w) /\ l_ep l = ep
  | AClose i _ _ => match nth_error (live w) i with
    | Some (ObLoop l) => forall o, In o (live w) -> ~ In (l_ep l) (uses o)
    | _ => True
    end
  | _ => True
  end.

Definition start : world := World (Kern [] [] 3 0 0 []) [].
Inductive reach (fate : nat -> option Z) (ok : world -> act -> Prop) : world -> Prop :=
| reach_start : reach fate ok start
| reach_step w a : reach fate ok w -> ok w a -> reach fate ok (step fate w a).
