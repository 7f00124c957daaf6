(** Model of a server socket of the Zephyr port: lib/src/platform/zephyr/server_socket.c, with the queue of
    lib/src/platform/zephyr/eventloop.c (49-64, 72-81) reduced to the notifications of this server socket.

    Network stack: runs in a thread of its own, here between two pieces of library code; the accept callback is called for every
    connection (or failure) from net_context_accept until net_context_put.  Connections are numbered.  Allocation of the client
    socket is the application's choice; cio_zephyr_socket_init (socket.c 234-259) cannot fail. *)
From Verif Require Import Base.

Definition SUCCESS : Z := 0%Z.
Definition NO_MEMORY : Z := (-12)%Z.

(** Observable events, newest first. *)
Inductive ev :=
| EvListen                                 (* cio_server_socket_accept was called and the network stack accepts connections *)
| EvAccept (res : Z)                       (* cio_server_socket_accept returns *)
| EvConn (c : nat)                         (* a connection was set up by the network stack *)
| EvConnFail (e : Z)
| EvHandler (err : Z) (o : option nat)     (* the accept handler is called, with a socket for a connection *)
| EvPut (c : nat)                          (* the connection is closed by the library *)
| EvClose
| EvHook.

(** Code that goes on after an application callback. *)
Inductive op := OUser | OPut.
(** struct cio_server_socket (server_socket.h, zephyr/server_socket_impl.h).  [armed]: handler and notifier callback are set;
    [listening]: the accept callback is registered; [pending]: notifications in the queue; [alive]: the memory may be used. *)
Record st := mkSt { armed : bool; new_context : option nat; accept_status : Z; listening : bool; pending : nat; removed : bool; alive : bool; ncon : nat; tr : list ev }.
Definition set_armed b s := mkSt b (new_context s) (accept_status s) (listening s) (pending s) (removed s) (alive s) (ncon s) (tr s).
Definition set_new c e s := mkSt (armed s) c e (listening s) (pending s) (removed s) (alive s) (ncon s) (tr s).
Definition set_listening b s := mkSt (armed s) (new_context s) (accept_status s) b (pending s) (removed s) (alive s) (ncon s) (tr s).
Definition set_pending n s := mkSt (armed s) (new_context s) (accept_status s) (listening s) n (removed s) (alive s) (ncon s) (tr s).
Definition set_removed b s := mkSt (armed s) (new_context s) (accept_status s) (listening s) (pending s) b (alive s) (ncon s) (tr s).
Definition set_alive b s := mkSt (armed s) (new_context s) (accept_status s) (listening s) (pending s) (removed s) b (ncon s) (tr s).
Definition set_ncon n s := mkSt (armed s) (new_context s) (accept_status s) (listening s) (pending s) (removed s) (alive s) n (tr s).
Definition log e s := mkSt (armed s) (new_context s) (accept_status s) (listening s) (pending s) (removed s) (alive s) (ncon s) (e :: tr s).
Definition conf := (st * list op)%type.

(** server_socket.c 133-152, cio_server_socket_accept, with a handler (135-137 refuses NULL); [lret] and [aret] are the results
    of net_context_listen and net_context_accept. *)
Definition accept (s : st) (lret aret : Z) (k : list op) : outcome conf :=
  if negb (alive s) then UB
  else
    let s := set_armed true s in
    if (lret <? 0)%Z then Ret (log (EvAccept lret) s, k)
    else
      let s := if (aret <? 0)%Z then s else log EvListen (set_listening true s) in
      Ret (log (EvAccept SUCCESS) s, k).

(** server_socket.c 119-131, net_context_accept_cb. *)
Definition accepted (s : st) (k : list op) : outcome conf :=
  if negb (alive s) then UB
  else
    let c := ncon s in
    Ret (set_pending (S (pending s)) (set_new (Some c) SUCCESS (set_ncon (S c) (log (EvConn c) s))), k).
Definition accept_failed (s : st) (status : Z) (k : list op) : outcome conf :=
  if negb (alive s) then UB
  else Ret (set_pending (S (pending s)) (set_new None status (log (EvConnFail status) s)), k).

(** eventloop.c 49-64 and server_socket.c 94-117, accept_callback; [mem]: alloc_client returns memory. *)
Definition dispatch (s : st) (mem : bool) (k : list op) : outcome conf :=
  let s := set_pending (pred (pending s)) s in
  if negb (alive s) then UB
  else if removed s then Ret (s, k)
  else if negb (armed s) then UB
  else if (accept_status s =? SUCCESS)%Z
  then
    if mem
    then match new_context s with
      | Some c => Ret (log (EvHandler SUCCESS (Some c)) s, OUser :: k)
      | None => UB
      end
    else Ret (log (EvHandler NO_MEMORY None) s, OUser :: OPut :: k)
  else Ret (log (EvHandler (accept_status s) None) s, OUser :: k).
(** server_socket.c 105: net_context_put(ss->impl.new_context). *)
Definition put_new (s : st) (k : list op) : outcome conf :=
  if negb (alive s) then UB
  else match new_context s with Some c => Ret (log (EvPut c) s, k) | None => UB end.

(** server_socket.c 154-162, cio_server_socket_close, with a hook; eventloop.c 78-81. *)
Definition close (s : st) (k : list op) : outcome conf :=
  if negb (alive s) then UB
  else Ret (set_alive false (log EvHook (set_listening false (set_removed true (log EvClose s)))), OUser :: k).

Inductive act :=
| XAccept (lret aret : Z)
| XClose
| XConn
| XConnFail (e : Z)
| XDispatch (mem : bool)
| XReturn
| XCont.

Definition app_runs (k : list op) : Prop := match k with [] | OUser :: _ => True | _ => False end.
Definition enabled (c : conf) (x : act) : Prop :=
  let '(s, k) := c in
  match x with
  | XAccept _ _ | XClose => app_runs k
  | XConn => listening s = true
  | XConnFail e => listening s = true /\ (e < 0)%Z
  | XDispatch _ => k = [] /\ pending s <> 0
  | XReturn => match k with OUser :: _ => True | _ => False end
  | XCont => match k with OPut :: _ => True | _ => False end
  end.
Definition step (c : conf) (x : act) : outcome conf :=
  let '(s, k) := c in
  match x with
  | XAccept lret aret => accept s lret aret k
  | XClose => close s k
  | XConn => accepted s k
  | XConnFail e => accept_failed s e k
  | XDispatch mem => dispatch s mem k
  | XReturn => Ret (s, tl k)
  | XCont => put_new s (tl k)
  end.

(** server_socket.c 39-63, cio_server_socket_init, successful. *)
Definition start : conf := (mkSt false None SUCCESS false 0 false true 0 [], []).
Inductive reach (user : conf -> act -> Prop) : conf -> Prop :=
| reach_init : reach user start
| reach_step c x c' : reach user c -> enabled c x -> user c x -> step c x = Ret c' -> reach user c'.
