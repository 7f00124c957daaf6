(** Model of lib/src/platform/linux/socket.c: one stream socket with its close
    timer, the event loop's dispatching (EpollModel: callbacks run only while
    the notifier is in the loop and registered), an arbitrary kernel and an
    arbitrary application.

    Simplified: [stream] is the first member of struct cio_socket (socket.h
    74-84), so ev.context is the same address whether it was set to the stream
    or to the socket, and is not modelled.  The write buffer chain is the list of
    its elements (C08).  The close timer (timer.c, see TimerModel) is inlined: its
    only handler is close_timeout_handler.  Argument checks against NULL and the
    socket options (414-463) are not modelled. *)
From Verif Require Import Base.

Definition SUCCESS : Z := 0%Z.
Definition EAGAIN : Z := 11%Z.
Definition EINPROGRESS : Z := 115%Z.

(** What a read handler is told: bytes added to the read buffer, CIO_EOF, or an
    error code. *)
Inductive rres := RData (l : list N) | REof | RErr (e : Z).

Inductive sev :=
| EvRead (id : nat) (space : N)                     (* read_some accepted; the buffer has [space] free bytes *)
| EvReadRefused (id : nat) (e : Z)
| EvReadDone (id : nat) (r : rres)                  (* the read handler is called *)
| EvWrite (id : nat) (c : list (list N))            (* write_some called with this chain and accepted *)
| EvWriteRefused (id : nat) (e : Z)
| EvSent (l : list N)                               (* the kernel accepted these bytes for transmission *)
| EvWriteDone (id : nat) (e : Z) (n : N)            (* the write handler is called *)
| EvConnect (id : nat)
| EvConnectRefused (id : nat) (e : Z)
| EvConnectDone (id : nat) (e : Z)
| EvClose                                           (* cio_socket_close called *)
| EvShutdown                                        (* sending direction shut down *)
| EvLinger                                          (* connection set up to be reset *)
| EvTimerClosed                                     (* the timer's descriptor is closed *)
| EvFdClosed
| EvHook.

(** Callback pointers of the notifier. *)
Inductive rcb := RNone | RStream | RUntilClose.
Inductive wcb := WNone | WStream | WConnect.
Inductive ktimer := KDisarmed | KRunning | KExpired.

(** struct cio_socket, socket.h 74-84, socket_impl.h 43-49, and the notifier's
    registered_events; [alive]: the memory may be used (until the close hook). *)
Record sock := mkS {
  alive : bool; in_loop : bool; reg_in : bool; reg_out : bool; rd_cb : rcb; wr_cb : wcb;
  peer_closed : bool; timeout_ns : N;
  th : bool (* close_timer.handler != NULL *); tk : ktimer;
  rreq : option (nat * N); wreq : option nat; creq : option nat; nid : nat; tr : list sev }.

Definition set_regs i o s := mkS (alive s) (in_loop s) i o (rd_cb s) (wr_cb s) (peer_closed s) (timeout_ns s) (th s) (tk s) (rreq s) (wreq s) (creq s) (nid s) (tr s).
Definition set_rcb c s := mkS (alive s) (in_loop s) (reg_in s) (reg_out s) c (wr_cb s) (peer_closed s) (timeout_ns s) (th s) (tk s) (rreq s) (wreq s) (creq s) (nid s) (tr s).
Definition set_wcb c s := mkS (alive s) (in_loop s) (reg_in s) (reg_out s) (rd_cb s) c (peer_closed s) (timeout_ns s) (th s) (tk s) (rreq s) (wreq s) (creq s) (nid s) (tr s).
Definition set_peer_closed s := mkS (alive s) (in_loop s) (reg_in s) (reg_out s) (rd_cb s) (wr_cb s) true (timeout_ns s) (th s) (tk s) (rreq s) (wreq s) (creq s) (nid s) (tr s).
Definition set_timer h k s := mkS (alive s) (in_loop s) (reg_in s) (reg_out s) (rd_cb s) (wr_cb s) (peer_closed s) (timeout_ns s) h k (rreq s) (wreq s) (creq s) (nid s) (tr s).
Definition set_rreq r s := mkS (alive s) (in_loop s) (reg_in s) (reg_out s) (rd_cb s) (wr_cb s) (peer_closed s) (timeout_ns s) (th s) (tk s) r (wreq s) (creq s) (nid s) (tr s).
Definition set_wreq w s := mkS (alive s) (in_loop s) (reg_in s) (reg_out s) (rd_cb s) (wr_cb s) (peer_closed s) (timeout_ns s) (th s) (tk s) (rreq s) w (creq s) (nid s) (tr s).
Definition set_creq c s := mkS (alive s) (in_loop s) (reg_in s) (reg_out s) (rd_cb s) (wr_cb s) (peer_closed s) (timeout_ns s) (th s) (tk s) (rreq s) (wreq s) c (nid s) (tr s).
Definition next_id s := mkS (alive s) (in_loop s) (reg_in s) (reg_out s) (rd_cb s) (wr_cb s) (peer_closed s) (timeout_ns s) (th s) (tk s) (rreq s) (wreq s) (creq s) (S (nid s)) (tr s).
Definition log e s := mkS (alive s) (in_loop s) (reg_in s) (reg_out s) (rd_cb s) (wr_cb s) (peer_closed s) (timeout_ns s) (th s) (tk s) (rreq s) (wreq s) (creq s) (nid s) (tr s ++ [e]).
Definition leave_loop s := mkS (alive s) false (reg_in s) (reg_out s) (rd_cb s) (wr_cb s) (peer_closed s) (timeout_ns s) (th s) (tk s) (rreq s) (wreq s) (creq s) (nid s) (tr s).
Definition free_mem s := mkS false (in_loop s) (reg_in s) (reg_out s) (rd_cb s) (wr_cb s) (peer_closed s) (timeout_ns s) (th s) (tk s) (rreq s) (wreq s) (creq s) (nid s) (tr s).

Inductive op :=
| OUser        (* an application handler is running *)
| OHook        (* the close hook is running *)
| OShutdown2.  (* socket.c 322-335: shutdown_socket after cio_timer_expires_from_now has run its handler *)
Definition config := (sock * list op)%type.

(** Kernel results used by one call; None/[] means success where applicable.
    [c_ctl]: errno of epoll_ctl (MOD), [c_shutdown]: of shutdown, [c_settime]: of
    timerfd_settime, [c_quick]: the timer runs out before
    cio_timer_expires_from_now reads it. *)
Record choice := Choice { c_ctl : option Z; c_shutdown : option Z; c_settime : option Z; c_quick : bool }.
Definition ok_choice := Choice None None None false.

(** The kernel's answer to read: bytes ([] for a return value of 0), or errno. *)
Inductive kread := KRead (l : list N) | KErr (e : Z).

(** socket.c 93-108: close_socket and close_and_call_hook.  cio_timer_close
    cancels an armed timer, whose handler ignores CIO_OPERATION_ABORTED. *)
Definition close_socket (s : sock) (k : list op) : outcome config :=
  if negb (alive s) then UB
  else
    let s := leave_loop (set_regs false (reg_out s) s) in
    let s := log EvTimerClosed (set_timer false KDisarmed s) in
    Ret (free_mem (log EvHook (log EvFdClosed s)), OHook :: k).

(** socket.c 110-119. *)
Definition reset_connection (s : sock) (k : list op) : outcome config :=
  if negb (alive s) then UB else close_socket (log EvLinger s) k.

(** socket.c 121-125; timer.c 133-150. *)
Definition cancel_timer (s : sock) : sock := if th s then set_timer false KDisarmed s else s.
Definition cancel_timer_and_reset_connection (s : sock) (k : list op) : outcome config := reset_connection (cancel_timer s) k.

(** socket.c 58-91, read_callback; [ctl] is the result of unregister_read.  The
    event loop always passes CIO_EPOLL_SUCCESS (epoll.c 202), so lines 70-74 are
    not reached. *)
Definition read_callback (s : sock) (r : kread) (ctl : option Z) (k : list op) : outcome config :=
  match rreq s with
  | None => UB   (* no handler *)
  | Some (id, space) =>
    let s := set_rreq None (set_regs false (reg_out s) s) in
    match ctl with
    | Some e => Ret (log (EvReadDone id (RErr (- e)%Z)) s, OUser :: k)
    | None =>
      match r with
      | KErr e => if Z.eqb e EAGAIN then Ret (s, k) else Ret (log (EvReadDone id (RErr (- e)%Z)) s, OUser :: k)
      | KRead [] => Ret (log (EvReadDone id REof) (set_peer_closed s), OUser :: k)
      | KRead l => Ret (log (EvReadDone id (RData l)) s, OUser :: k)
      end
    end
  end.

(** socket.c 129-159. *)
Definition read_until_close_callback (s : sock) (r : kread) (ctl : option Z) (k : list op) : outcome config :=
  let s := set_regs false (reg_out s) s in
  match ctl with
  | Some _ => cancel_timer_and_reset_connection s k
  | None => match r with
    | KErr e => if Z.eqb e EAGAIN then Ret (s, k) else cancel_timer_and_reset_connection s k
    | KRead [] => close_socket (cancel_timer s) k
    | KRead _ => Ret (s, k)
    end
  end.

(** socket.c 161-175, stream_read. *)
Definition stream_read (s : sock) (space : N) (ch : choice) (k : list op) : outcome config :=
  if negb (alive s) then UB
  else
    let id := nid s in
    let s := set_regs true (reg_out s) (set_rreq (Some (id, space)) (set_rcb RStream (next_id s))) in
    match c_ctl ch with
    | None => Ret (log (EvRead id space) s, k)
    | Some e => Ret (log (EvReadRefused id (- e)%Z) s, k)
    end.

(** socket.c 177-189, write_callback; [serr] is SO_ERROR if the loop reported an
    error condition, else 0. *)
Definition write_callback (s : sock) (serr : Z) (k : list op) : outcome config :=
  match wreq s with
  | None => UB
  | Some id => Ret (log (EvWriteDone id (- serr)%Z 0) (set_wreq None s), OUser :: k)
  end.

(** socket.c 191-233, stream_write; [res]: bytes accepted by sendmsg, or errno. *)
Definition stream_write (s : sock) (c : list (list N)) (res : N + Z) (ch : choice) (k : list op) : outcome config :=
  if negb (alive s) then UB
  else
    let id := nid s in
    let s := next_id s in
    match res with
    | inl n => Ret (log (EvWriteDone id SUCCESS n) (log (EvSent (firstn (N.to_nat n) (concat c))) (log (EvWrite id c) s)), OUser :: k)
    | inr e =>
      if Z.eqb e EAGAIN then
        let s := set_regs (reg_in s) true (set_wcb WStream (set_wreq (Some id) s)) in
        match c_ctl ch with
        | None => Ret (log (EvWrite id c) s, k)
        | Some e => Ret (log (EvWriteRefused id (- e)%Z) s, k)
        end
      else Ret (log (EvWriteRefused id (- e)%Z) s, k)
    end.

(** socket.c 301-309. *)
Definition close_timeout_handler (s : sock) (success : bool) (k : list op) : outcome config :=
  if success then reset_connection s k else Ret (s, k).

(** socket.c 326-335, the end of shutdown_socket. *)
Definition shutdown_end (s : sock) (ch : choice) (k : list op) : outcome config :=
  if negb (alive s) then UB
  else
    let s := set_regs true (reg_out s) s in
    match c_ctl ch with None => Ret (s, k) | Some _ => reset_connection s k end.

(** socket.c 311-335, with timer.c 116-131 inlined. *)
Definition shutdown_socket (s : sock) (ch : choice) (k : list op) : outcome config :=
  match c_shutdown ch with
  | Some _ => reset_connection s k
  | None =>
    let s := set_rcb RUntilClose (log EvShutdown s) in
    match c_settime ch with
    | Some _ => reset_connection (set_timer true (tk s) s) k
    | None =>
      if c_quick ch
      then close_timeout_handler (set_timer false KDisarmed s) true (OShutdown2 :: k)
      else shutdown_end (set_timer true KRunning s) ch k
    end
  end.

(** socket.c 337-355. *)
Definition socket_close (s : sock) (ch : choice) (k : list op) : outcome config :=
  if negb (alive s) then UB
  else
    let s := log EvClose s in
    if peer_closed s then close_socket s k
    else if N.ltb 0 (timeout_ns s) then shutdown_socket s ch k
    else close_socket s k.

(** socket.c 357-394. *)
Definition connect_callback (s : sock) (serr : Z) (k : list op) : outcome config :=
  match creq s with
  | None => UB
  | Some id => Ret (log (EvConnectDone id (- serr)%Z) (set_creq None s), OUser :: k)
  end.
Definition socket_connect (s : sock) (res : option Z) (ch : choice) (k : list op) : outcome config :=
  if negb (alive s) then UB
  else
    let id := nid s in
    let s := next_id s in
    match res with
    | None => Ret (log (EvConnectDone id SUCCESS) (log (EvConnect id) s), OUser :: k)
    | Some e =>
      if Z.eqb e EINPROGRESS then
        let s := set_regs (reg_in s) true (set_wcb WConnect (set_creq (Some id) s)) in
        match c_ctl ch with
        | None => Ret (log (EvConnect id) s, k)
        | Some e => Ret (log (EvConnectRefused id (- e)%Z) s, k)
        end
      else Ret (log (EvConnectRefused id (- e)%Z) s, k)
    end.

Inductive act :=
| XRead (space : N) (ch : choice)
| XWrite (c : list (list N)) (res : N + Z) (ch : choice)
| XConnect (res : option Z) (ch : choice)
| XClose (ch : choice)
| XReadable (r : kread) (ctl : option Z)     (* the loop calls the read callback *)
| XWritable (serr : Z)                       (* the loop unregisters EPOLLOUT and calls the write callback *)
| XTimerExpire                               (* the kernel timer runs out *)
| XTimer                                     (* the loop dispatches the timer *)
| XReturn                                    (* handler or hook returns *)
| XCont (ch : choice).

Definition app_runs (k : list op) : bool := match k with [] => true | OUser :: _ => true | OHook :: _ => true | _ => false end.

(** What can happen: the loop dispatches only notifiers it watches, at top level
    and only for registered events (C37, C38); read returns at most as many
    bytes as asked for; sendmsg accepts at most the bytes offered; the error
    condition reported with a dispatch is never EAGAIN... (any value). *)
Definition enabled (c : config) (x : act) : Prop :=
  let '(s, k) := c in
  match x with
  | XRead _ _ | XConnect _ _ | XClose _ => app_runs k = true
  | XWrite c res _ => app_runs k = true /\ match res with inl n => (n <= N.of_nat (length (concat c)))%N | inr _ => True end
  | XReadable r _ => k = [] /\ in_loop s = true /\ reg_in s = true /\
      match r, rd_cb s, rreq s with KRead l, RStream, Some (_, space) => (N.of_nat (length l) <= space)%N | _, _, _ => True end
  | XWritable _ => k = [] /\ in_loop s = true /\ reg_out s = true
  | XTimerExpire => tk s = KRunning
  | XTimer => k = [] /\ alive s = true
  | XReturn => match k with OUser :: _ | OHook :: _ => True | _ => False end
  | XCont _ => match k with OShutdown2 :: _ => True | _ => False end
  end.

Definition step (c : config) (x : act) : outcome config :=
  let '(s, k) := c in
  match x with
  | XRead space ch => stream_read s space ch k
  | XWrite c res ch => stream_write s c res ch k
  | XConnect res ch => socket_connect s res ch k
  | XClose ch => socket_close s ch k
  | XReadable r ctl => if negb (alive s) then UB else match rd_cb s with
    | RNone => UB
    | RStream => read_callback s r ctl k
    | RUntilClose => read_until_close_callback s r ctl k
    end
  | XWritable serr => if negb (alive s) then UB else
    let s := set_regs (reg_in s) false s in      (* epoll.c 170 *)
    match wr_cb s with
    | WNone => UB
    | WStream => write_callback s serr k
    | WConnect => connect_callback s serr k
    end
  | XTimerExpire => Ret (set_timer (th s) KExpired s, k)
  | XTimer => match tk s with
    | KExpired => if th s then close_timeout_handler (set_timer false KDisarmed s) true k else UB   (* timer.c 73-77 *)
    | _ => Ret (s, k)
    end
  | XReturn => match k with OUser :: r | OHook :: r => Ret (s, r) | _ => Ret c end
  | XCont ch => match k with OShutdown2 :: r => shutdown_end s ch r | _ => Ret c end
  end.

(** socket.c 241-276 in the case of success. *)
Definition socket_init (close_timeout_ns : N) : config :=
  (mkS true true false false RNone WNone false close_timeout_ns false KDisarmed None None None 0 [], []).

Section Reach.
Variable tmo : N.
Inductive reach (user : config -> act -> Prop) : config -> Prop :=
| reach_init : reach user (socket_init tmo)
| reach_step c x c' : reach user c -> enabled c x -> user c x -> step c x = Ret c' -> reach user c'.
End Reach.
Definition anyone (c : config) (x : act) : Prop := True.
