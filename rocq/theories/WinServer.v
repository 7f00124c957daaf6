(** Model of a server socket of the Windows port: lib/src/platform/windows/server_socket.c, dispatched by
    lib/src/platform/windows/iocp.c (78-113).

    Kernel: AcceptEx on a prepared socket ends exactly once, with a completion in the queue: with a connection on that socket,
    or with an error; CancelIo makes it end, with WSA_OPERATION_ABORTED unless it ended otherwise before; before that it does not
    end that way.  Using the OVERLAPPED of a pending AcceptEx again is undefined; setsockopt on a closed socket fails; closing a
    socket twice is undefined (the handle may belong to somebody else by then).  Application callbacks run as entries of an
    explicit stack; alloc_client and free_client do not call back. *)
From Verif Require Import Base.

Definition SUCCESS : Z := 0%Z.
(** error_code.h 70 with ERROR_OUTOFMEMORY of winerror.h. *)
Definition NO_MEMORY : Z := (-14)%Z.
Definition WSA_OPERATION_ABORTED : Z := 995%Z.
Definition WSAENOTSOCK : Z := 10038%Z.

(** Observable events, newest first; sockets are numbered. *)
Inductive ev :=
| EvBind (res : Z)
| EvAccept (res : Z)                        (* cio_server_socket_accept returned res *)
| EvOpen (c : nat)                          (* WSASocketW *)
| EvConn (c : nat)                          (* the kernel has a connection on socket c *)
| EvFail (e : Z)                            (* the kernel ends AcceptEx with error e *)
| EvShut (c : nat)                          (* closesocket *)
| EvHandler (err : Z) (client : option nat) (* the accept handler is called *)
| EvClose
| EvShutListen                              (* closesocket of the listening socket *)
| EvHook.

Inductive aend := AConn | AErr (e : Z).
Inductive kacc := KIdle | KPending (c : nat) | KQueued (c : nat) (r : aend).
(** struct cio_server_socket (server_socket.h, windows/server_socket_impl.h).  [lopen]: the listening socket is open; [acc]:
    accept_socket, None for INVALID_SOCKET; [held]: the open sockets that belong to the library; [alive]: the memory may be
    used. *)
Record st := mkSt { lopen : bool; bound : bool; acc : option nat; in_use : nat; ka : kacc; held : list nat; hset : bool; cancelled : bool; alive : bool; nsock : nat; tr : list ev }.
Definition set_lopen b s := mkSt b (bound s) (acc s) (in_use s) (ka s) (held s) (hset s) (cancelled s) (alive s) (nsock s) (tr s).
Definition set_bound b s := mkSt (lopen s) b (acc s) (in_use s) (ka s) (held s) (hset s) (cancelled s) (alive s) (nsock s) (tr s).
Definition set_acc a s := mkSt (lopen s) (bound s) a (in_use s) (ka s) (held s) (hset s) (cancelled s) (alive s) (nsock s) (tr s).
Definition set_in_use n s := mkSt (lopen s) (bound s) (acc s) n (ka s) (held s) (hset s) (cancelled s) (alive s) (nsock s) (tr s).
Definition set_ka k s := mkSt (lopen s) (bound s) (acc s) (in_use s) k (held s) (hset s) (cancelled s) (alive s) (nsock s) (tr s).
Definition set_held h s := mkSt (lopen s) (bound s) (acc s) (in_use s) (ka s) h (hset s) (cancelled s) (alive s) (nsock s) (tr s).
Definition set_hset b s := mkSt (lopen s) (bound s) (acc s) (in_use s) (ka s) (held s) b (cancelled s) (alive s) (nsock s) (tr s).
Definition set_cancelled b s := mkSt (lopen s) (bound s) (acc s) (in_use s) (ka s) (held s) (hset s) b (alive s) (nsock s) (tr s).
Definition set_alive b s := mkSt (lopen s) (bound s) (acc s) (in_use s) (ka s) (held s) (hset s) (cancelled s) b (nsock s) (tr s).
Definition set_nsock n s := mkSt (lopen s) (bound s) (acc s) (in_use s) (ka s) (held s) (hset s) (cancelled s) (alive s) n (tr s).
Definition log e s := mkSt (lopen s) (bound s) (acc s) (in_use s) (ka s) (held s) (hset s) (cancelled s) (alive s) (nsock s) (e :: tr s).
Inductive op := OUser.
Definition conf := (st * list op)%type.

Definition rem (c : nat) (l : list nat) : list nat := filter (fun d => negb (Nat.eqb d c)) l.
Definition mem (c : nat) (l : list nat) : bool := existsb (Nat.eqb c) l.
(** closesocket(c). *)
Definition shut (c : nat) (s : st) : outcome st :=
  if mem c (held s) then Ret (log (EvShut c) (set_held (rem c (held s)) s)) else UB.

(** server_socket.c 52-63, try_free, with a hook. *)
Definition try_free (s : st) (k : list op) : outcome conf :=
  if Nat.eqb (in_use s) 0
  then if lopen s then
    let s := log EvShutListen (set_lopen false s) in
    if bound s then Ret (s, k) else Ret (set_alive false (log EvHook s), OUser :: k)
  else UB
  else Ret (s, k).

(** server_socket.c 131-160, prepare_accept_socket; [how]: WSASocketW fails, AcceptEx fails, or it is pending. *)
Inductive prep := PSock (e : Z) | PEx (e : Z) | POk.
Definition prepare (s : st) (how : prep) : outcome (Z * st) :=
  match how with
  | PSock e => Ret ((- e)%Z, set_acc None s)
  | PEx e =>
      let c := nsock s in
      match ka s with
      | KIdle => match shut c (log (EvOpen c) (set_nsock (S c) (set_held (c :: held s) (set_acc (Some c) s)))) with Ret s => Ret ((- e)%Z, s) | UB => UB end
      | _ => UB
      end
  | POk =>
      let c := nsock s in
      match ka s with
      | KIdle => Ret (SUCCESS, set_in_use (S (in_use s)) (set_ka (KPending c) (log (EvOpen c) (set_nsock (S c) (set_held (c :: held s) (set_acc (Some c) s))))))
      | _ => UB
      end
  end.

(** server_socket.c 231-253, cio_server_socket_accept, with a handler; [lerr]: the error of listen, 0 if it succeeds. *)
Definition accept (s : st) (lerr : Z) (how : prep) (k : list op) : outcome conf :=
  if negb (alive s) then UB
  else
    let s := set_hset true s in
    if bound s then
      if negb (lopen s) then UB
      else if (lerr =? 0)%Z then
        match prepare s how with Ret (res, s) => Ret (log (EvAccept res) s, k) | UB => UB end
      else Ret (log (EvAccept (- lerr)) s, k)
    else Ret (log (EvAccept SUCCESS) s, k).

(** server_socket.c 267-281, cio_server_socket_bind; [err]: the error of bind, 0 if it succeeds. *)
Definition bind_ (s : st) (err : Z) (k : list op) : outcome conf :=
  if negb (alive s) then UB
  else if (err =? 0)%Z then Ret (log (EvBind SUCCESS) (set_bound true s), k) else Ret (log (EvBind (- err)) s, k).

(** server_socket.c 162-170, close_listen_socket, and 283-286, cio_server_socket_close. *)
Definition close (s : st) (k : list op) : outcome conf :=
  if negb (alive s) then UB
  else
    let s := set_cancelled true (log EvClose s) in
    match acc s with
    | None => try_free s k
    | Some c => match shut c s with Ret s => try_free s k | UB => UB end
    end.

(** server_socket.c 65-129, accept_callback; [serr]: the error of setsockopt, 0 if it succeeds; [how]: the next AcceptEx; [mem]:
    alloc_client returns a socket; [perr]: the error of adding it to the completion port or of cio_windows_socket_init. *)
Definition call_handler (s : st) (err : Z) (cl : option nat) (k : list op) : outcome conf :=
  if hset s then Ret (log (EvHandler err cl) s, OUser :: k) else UB.
Definition accept_callback (s : st) (r : aend) (serr : Z) (how : prep) (hasmem : bool) (perr : Z) (k : list op) : outcome conf :=
  if negb (alive s) then UB
  else
    let s := set_in_use (pred (in_use s)) (set_ka KIdle s) in
    match r with
    | AErr e => if (e =? WSA_OPERATION_ABORTED)%Z then try_free (set_bound false s) k else call_handler s (- e)%Z None k
    | AConn =>
        match acc s with
        | None => call_handler s (- WSAENOTSOCK)%Z None k
        | Some c =>
            if negb (mem c (held s)) then call_handler s (- WSAENOTSOCK)%Z None k
            else if negb (serr =? 0)%Z then call_handler s (- serr)%Z None k
            else match prepare s how with
            | UB => UB
            | Ret (res, s) =>
                if negb (res =? SUCCESS)%Z then call_handler s res None k
                else if negb hasmem then match shut c s with Ret s => call_handler s NO_MEMORY None k | UB => UB end
                else if negb (perr =? 0)%Z then match shut c s with Ret s => call_handler s (- perr)%Z None k | UB => UB end
                else call_handler (set_held (rem c (held s)) s) SUCCESS (Some c) k
            end
        end
    end.

Inductive act :=
| XBind (err : Z)
| XAccept (lerr : Z) (how : prep)
| XClose
| XConn
| XFail (e : Z)
| XEvent (serr : Z) (how : prep) (hasmem : bool) (perr : Z)
| XReturn.
Definition prep_ok (p : prep) : Prop := match p with PSock e | PEx e => (0 < e)%Z | POk => True end.
Definition enabled (c : conf) (x : act) : Prop :=
  let '(s, k) := c in
  match x with
  | XBind err => (0 <= err)%Z
  | XAccept lerr how => (0 <= lerr)%Z /\ prep_ok how
  | XClose => True
  | XConn => exists c, ka s = KPending c
  | XFail e => (exists c, ka s = KPending c) /\ (0 < e)%Z /\ (e = WSA_OPERATION_ABORTED -> cancelled s = true)
  | XEvent serr how _ perr => k = [] /\ (exists c r, ka s = KQueued c r) /\ (0 <= serr)%Z /\ prep_ok how /\ (0 <= perr)%Z
  | XReturn => k <> []
  end.
Definition step (c : conf) (x : act) : outcome conf :=
  let '(s, k) := c in
  match x with
  | XBind err => bind_ s err k
  | XAccept lerr how => accept s lerr how k
  | XClose => close s k
  | XConn => match ka s with KPending c => Ret (log (EvConn c) (set_ka (KQueued c AConn) s), k) | _ => Ret (s, k) end
  | XFail e => match ka s with KPending c => Ret (log (EvFail e) (set_ka (KQueued c (AErr e)) s), k) | _ => Ret (s, k) end
  | XEvent serr how hasmem perr => match ka s with KQueued _ r => accept_callback s r serr how hasmem perr k | _ => Ret (s, k) end
  | XReturn => Ret (s, tl k)
  end.

(** server_socket.c 204-229, cio_server_socket_init, 172-202, create_listen_socket, that succeeded. *)
Definition start : conf := (mkSt true false None 0 KIdle [] false false true 0 [], []).
Inductive reach (user : conf -> act -> Prop) : conf -> Prop :=
| reach_init : reach user start
| reach_step c x c' : reach user c -> enabled c x -> user c x -> step c x = Ret c' -> reach user c'.

(** create_listen_socket when WSAIoctl fails (189-193, 199-201): close_listen_socket is called when nobody has written the
    counter yet, which has the value [junk]; cio_server_socket_init then reports the failure. *)
Definition init_failed (junk : nat) : outcome conf := try_free (set_in_use junk (fst start)) [].
