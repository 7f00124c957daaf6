(** What a user expects of a socket, in terms of the observable events. *)
From Verif Require Import Base SocketModel.

Definition count (p : sev -> bool) (t : list sev) : nat := length (filter p t).
Definition is_hook e := match e with EvHook => true | _ => false end.
Definition is_fd_closed e := match e with EvFdClosed => true | _ => false end.
Definition is_timer_closed e := match e with EvTimerClosed => true | _ => false end.
Definition is_read id e := match e with EvRead i _ => Nat.eqb i id | _ => false end.
Definition is_read_done id e := match e with EvReadDone i _ => Nat.eqb i id | _ => false end.
Definition is_write id e := match e with EvWrite i _ => Nat.eqb i id | _ => false end.
Definition is_write_done id e := match e with EvWriteDone i _ _ => Nat.eqb i id | _ => false end.

(** The read (write) that is still waiting for its handler call. *)
Definition rout_step (o : option nat) (e : sev) : option nat :=
  match e with EvRead id _ => Some id | EvReadDone _ _ => None | _ => o end.
Definition rout (t : list sev) : option nat := fold_left rout_step t None.
Definition wout_step (o : option nat) (e : sev) : option nat :=
  match e with EvWrite id _ => Some id | EvWriteDone _ _ _ => None | _ => o end.
Definition wout (t : list sev) : option nat := fold_left wout_step t None.
Definition cout_step (o : option nat) (e : sev) : option nat :=
  match e with EvConnect id => Some id | EvConnectDone _ _ => None | _ => o end.
Definition cout (t : list sev) : option nat := fold_left cout_step t None.

(** Conduct for closing: the socket is not used any more once its close hook has
    been called, and the close timeout is not so short that it has run out when
    timerfd_settime returns. *)
Definition sane (c : config) (x : act) : Prop :=
  let '(s, k) := c in
  match x with
  | XRead _ _ | XWrite _ _ _ | XConnect _ _ => ~ In EvHook (tr s)
  | XClose ch => ~ In EvHook (tr s) /\ c_quick ch = false
  | _ => True
  end.

(** Conduct for reading and writing: one read at a time with room in the buffer,
    one write at a time and none while connecting, nothing after
    cio_socket_close; epoll_ctl does not fail; a read after readiness does not
    answer EAGAIN. *)
Definition orderly (c : config) (x : act) : Prop :=
  sane c x /\
  let '(s, k) := c in
  match x with
  | XRead space ch => (0 < space)%N /\ c_ctl ch = None /\ rout (tr s) = None /\ ~ In EvClose (tr s)
  | XWrite _ _ ch => c_ctl ch = None /\ wout (tr s) = None /\ cout (tr s) = None /\ ~ In EvClose (tr s)
  | XConnect _ ch => c_ctl ch = None /\ wout (tr s) = None /\ cout (tr s) = None /\ ~ In EvClose (tr s)
  | XReadable r _ => r <> KErr EAGAIN
  | _ => True
  end.
