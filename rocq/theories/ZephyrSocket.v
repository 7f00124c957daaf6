(** Model of a connected TCP socket of the Zephyr port: lib/src/platform/zephyr/socket.c, with the queue of
    lib/src/platform/zephyr/eventloop.c (49-64, 72-76) reduced to the notifications of this socket.

    Network stack (net_context, Zephyr 1.14/2.x): runs in a thread of its own, here between two calls of the library; a receive
    or send callback is called only while it is registered; net_context_sendmsg calls the send callback with status 0 before
    it returns; net_context_put removes both callbacks.  Packets that arrive while no receive callback is registered stay with the
    network stack.  The limit of 10 entries of the queue is part of [ZephyrTimer], not of this model. *)
From Verif Require Import Base.

Definition SUCCESS : Z := 0%Z.
(** cio/error_code.h. *)
Definition CIO_EOF : Z := 1%Z.
Definition INVALID_ARGUMENT : Z := (-22)%Z.

(** What the network stack hands to the receive callback: a packet, the peer's FIN, or a failure (also of net_pkt_read). *)
Inductive arrival := Data (bs : list N) | Fin | Fail (e : Z).

(** Observable events, newest first; requests are numbered. *)
Inductive ev :=
| EvRead (n space : nat)                       (* read_some accepted *)
| EvWrite (n total : nat)                      (* write_some accepted, total bytes in the chain *)
| EvRefused (res : Z)                          (* read_some or write_some returned an error *)
| EvArrived (x : arrival)
| EvSent (status : Z)                          (* the network stack reports the end of a transmission *)
| EvReadDone (n : nat) (err : Z) (data : list N)      (* the read handler is called; data was added to its buffer *)
| EvWriteDone (n : nat) (err : Z) (count : nat)       (* the write handler is called *)
| EvClose
| EvHook.

(** Which function the notifier of the socket calls. *)
Inductive callback := CNull | CRead | CWritten.
(** struct cio_socket (socket.h, zephyr/socket_impl.h).  The read buffer is given by the space left in it and what was added since
    the request.  [recv_on], [send_on]: the callbacks registered in the net_context; [pending]: notifications in the queue;
    [alive]: the memory may be used; [depth]: application callbacks that are running. *)
Record st := mkSt { rh : option nat; space : nat; got : list N; wh : option nat; bytes_to_send : nat; cb : callback;
  read_status : Z; send_status : Z; recv_on : bool; send_on : bool; pending : nat; alive : bool; depth : nat; nreq : nat; tr : list ev }.
Definition set_read h sp g s := mkSt h sp g (wh s) (bytes_to_send s) (cb s) (read_status s) (send_status s) (recv_on s) (send_on s) (pending s) (alive s) (depth s) (nreq s) (tr s).
Definition set_write h b s := mkSt (rh s) (space s) (got s) h b (cb s) (read_status s) (send_status s) (recv_on s) (send_on s) (pending s) (alive s) (depth s) (nreq s) (tr s).
Definition set_cb c s := mkSt (rh s) (space s) (got s) (wh s) (bytes_to_send s) c (read_status s) (send_status s) (recv_on s) (send_on s) (pending s) (alive s) (depth s) (nreq s) (tr s).
Definition set_read_status r s := mkSt (rh s) (space s) (got s) (wh s) (bytes_to_send s) (cb s) r (send_status s) (recv_on s) (send_on s) (pending s) (alive s) (depth s) (nreq s) (tr s).
Definition set_send_status r s := mkSt (rh s) (space s) (got s) (wh s) (bytes_to_send s) (cb s) (read_status s) r (recv_on s) (send_on s) (pending s) (alive s) (depth s) (nreq s) (tr s).
Definition set_recv_on b s := mkSt (rh s) (space s) (got s) (wh s) (bytes_to_send s) (cb s) (read_status s) (send_status s) b (send_on s) (pending s) (alive s) (depth s) (nreq s) (tr s).
Definition set_send_on b s := mkSt (rh s) (space s) (got s) (wh s) (bytes_to_send s) (cb s) (read_status s) (send_status s) (recv_on s) b (pending s) (alive s) (depth s) (nreq s) (tr s).
Definition set_pending n s := mkSt (rh s) (space s) (got s) (wh s) (bytes_to_send s) (cb s) (read_status s) (send_status s) (recv_on s) (send_on s) n (alive s) (depth s) (nreq s) (tr s).
Definition set_alive b s := mkSt (rh s) (space s) (got s) (wh s) (bytes_to_send s) (cb s) (read_status s) (send_status s) (recv_on s) (send_on s) (pending s) b (depth s) (nreq s) (tr s).
Definition set_depth n s := mkSt (rh s) (space s) (got s) (wh s) (bytes_to_send s) (cb s) (read_status s) (send_status s) (recv_on s) (send_on s) (pending s) (alive s) n (nreq s) (tr s).
Definition set_nreq n s := mkSt (rh s) (space s) (got s) (wh s) (bytes_to_send s) (cb s) (read_status s) (send_status s) (recv_on s) (send_on s) (pending s) (alive s) (depth s) n (tr s).
Definition log e s := mkSt (rh s) (space s) (got s) (wh s) (bytes_to_send s) (cb s) (read_status s) (send_status s) (recv_on s) (send_on s) (pending s) (alive s) (depth s) (nreq s) (e :: tr s).

(** eventloop.c 72-76, cio_zephyr_eventloop_add_event. *)
Definition add_event (s : st) : st := set_pending (S (pending s)) s.

(** socket.c 53-85, tcp_received. *)
Definition tcp_received (s : st) (x : arrival) : outcome st :=
  if negb (alive s) then UB
  else
    let s := log (EvArrived x) (set_recv_on false s) in
    match x with
    | Fin => Ret (add_event (set_read_status CIO_EOF s))
    | Data bs =>
        let n := Nat.min (length bs) (space s) in
        Ret (add_event (set_read (rh s) (space s - n) (got s ++ firstn n bs) (set_read_status SUCCESS s)))
    | Fail e => Ret (add_event (set_read_status e s))
    end.

(** socket.c 95-115, stream_read, with valid arguments (97-99 refuses NULL); [ret] is the result of net_context_recv. *)
Definition stream_read (s : st) (sp : nat) (ret : Z) : outcome st :=
  if negb (alive s) then UB
  else
    let n := nreq s in
    let s := set_cb CRead (set_read (Some n) sp [] (set_nreq (S n) s)) in
    if (ret <? 0)%Z then Ret (log (EvRefused ret) s)
    else Ret (log (EvRead n sp) (set_recv_on true s)).

(** socket.c 147-190, stream_write, with valid arguments (149-151 refuses NULL), for a chain whose elements have the given lengths
    (161-180; the chain itself is the heap of WriteBufferModel.v); [ret] is the result of net_context_sendmsg. *)
Definition stream_write (s : st) (lens : list nat) (ret : Z) : outcome st :=
  if negb (alive s) then UB
  else
    let n := nreq s in
    let total := fold_left Nat.add lens 0 in
    let s := set_write (Some n) total (set_cb CWritten (set_nreq (S n) s)) in
    if (ret <? 0)%Z then Ret (log (EvRefused ret) s)
    else Ret (log (EvWrite n total) (set_send_on true s)).

(** socket.c 131-145, tcp_sent. *)
Definition tcp_sent (s : st) (status : Z) : outcome st :=
  if (status =? 0)%Z then Ret (log (EvSent status) s)
  else if negb (alive s) then UB
  else Ret (add_event (set_send_on false (set_send_status status (log (EvSent status) s)))).

(** socket.c 87-93, read_callback: the handler pointer must be set. *)
Definition read_callback (s : st) : outcome st :=
  match rh s with None => UB | Some n => Ret (set_depth (S (depth s)) (log (EvReadDone n (read_status s) (got s)) s)) end.
(** socket.c 117-129, written_callback. *)
Definition written_callback (s : st) : outcome st :=
  match wh s with
  | None => UB
  | Some n =>
      if (send_status s <? 0)%Z then Ret (set_depth (S (depth s)) (log (EvWriteDone n (send_status s) 0) s))
      else Ret (set_depth (S (depth s)) (log (EvWriteDone n SUCCESS (bytes_to_send s)) s))
  end.
(** eventloop.c 49-64: one notification is taken from the queue; the notifier is part of the socket. *)
Definition dispatch (s : st) : outcome st :=
  let s := set_pending (pred (pending s)) s in
  if negb (alive s) then UB
  else match cb s with
  | CNull => UB
  | CRead => read_callback s
  | CWritten => written_callback s
  end.

(** socket.c 213-232, cio_socket_close, 192-196, stream_close, 206-211, close_socket, 198-204, close_and_call_hook, with a hook:
    the notifier is not removed from the event loop.  (peer_closed_connection makes no difference.) *)
Definition close (s : st) : outcome st :=
  if negb (alive s) then UB
  else Ret (set_depth (S (depth s)) (set_alive false (log EvHook (set_send_on false (set_recv_on false (log EvClose s)))))).

Inductive act :=
| XRead (sp : nat) (ret : Z)
| XWrite (lens : list nat) (ret : Z)
| XClose
| XArrive (x : arrival)
| XSent (status : Z)
| XDispatch
| XReturn.              (* the application's handler or hook returns *)

Definition enabled (s : st) (x : act) : Prop :=
  match x with
  | XRead _ _ | XWrite _ _ | XClose => True
  | XArrive (Fail e) => recv_on s = true /\ (e < 0)%Z
  | XArrive _ => recv_on s = true
  | XSent _ => send_on s = true
  | XDispatch => depth s = 0 /\ pending s <> 0
  | XReturn => depth s <> 0
  end.
Definition step (s : st) (x : act) : outcome st :=
  match x with
  | XRead sp ret => stream_read s sp ret
  | XWrite lens ret => stream_write s lens ret
  | XClose => close s
  | XArrive a => tcp_received s a
  | XSent status => tcp_sent s status
  | XDispatch => dispatch s
  | XReturn => Ret (set_depth (pred (depth s)) s)
  end.

(** socket.c 234-259, cio_zephyr_socket_init; fields that it leaves alone have values that do not matter. *)
Definition start : st := mkSt None 0 [] None 0 CNull SUCCESS SUCCESS false false 0 true 0 0 [].

Inductive reach (user : st -> act -> Prop) : st -> Prop :=
| reach_init : reach user start
| reach_step s x s' : reach user s -> enabled s x -> user s x -> step s x = Ret s' -> reach user s'.
