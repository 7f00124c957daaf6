(** Model of a TCP socket of the Windows port: lib/src/platform/windows/socket.c, with the completion port of
    lib/src/platform/windows/iocp.c (78-113) reduced to the completions of this socket.

    Kernel: an overlapped operation ends exactly once, with a completion in the queue; an OVERLAPPED structure may be used for
    another operation only after its completion was taken from the queue; CancelIo makes the pending operations end, with
    WSA_OPERATION_ABORTED unless they end otherwise first; before that no operation ends that way.  The two completions that can
    be queued are delivered in any order.  Application callbacks run as entries of an explicit stack. *)
From Verif Require Import Base.

Definition SUCCESS : Z := 0%Z.
Definition CIO_EOF : Z := 1%Z.
(** winerror.h. *)
Definition WSA_OPERATION_ABORTED : Z := 995%Z.

(** How the kernel ends a read: with bytes, with the peer's FIN, or with an error code. *)
Inductive rres := RData (bs : list N) | RFin | RErr (e : Z).
(** How it ends a write (bytes sent) or a connect. *)
Inductive wres := WOk (count : nat) | WErr (e : Z).
Inductive kstate (A : Type) := KIdle | KPending | KQueued (r : A).
Arguments KIdle {A}. Arguments KPending {A}. Arguments KQueued {A} r.

(** Observable events, newest first; requests are numbered.  [EvReadEnd], [EvWriteEnd]: the kernel ends an operation;
    [EvReadVoid], [EvWriteVoid]: the event loop takes an aborted completion from the queue. *)
Inductive ev :=
| EvRead (n space : nat)
| EvWrite (n total : nat)
| EvConnect (n : nat)
| EvRefused (res : Z)
| EvReadEnd (r : rres)
| EvWriteEnd (r : wres)
| EvReadDone (n : nat) (err : Z) (data : list N)
| EvWriteDone (n : nat) (err : Z) (count : nat)
| EvConnectDone (n : nat) (err : Z)
| EvReadVoid
| EvWriteVoid
| EvClose
| EvHook.

Inductive op := OUser | OIncr.
(** struct cio_socket (socket.h, windows/socket_impl.h): handlers, the counters overlapped_operations_in_use of both events, the
    callback of the write event ([wconnect]: connect_callback).  [kr], [kw]: the operations in the kernel; [alive]: the memory may
    be used. *)
Record st := mkSt { rh : option nat; rspace : nat; wh : option nat; ch : option nat; wconnect : bool; r_use : nat; w_use : nat;
  kr : kstate rres; kw : kstate wres; cancelled : bool; alive : bool; nreq : nat; tr : list ev }.
Definition set_rh h sp s := mkSt h sp (wh s) (ch s) (wconnect s) (r_use s) (w_use s) (kr s) (kw s) (cancelled s) (alive s) (nreq s) (tr s).
Definition set_wh h s := mkSt (rh s) (rspace s) h (ch s) (wconnect s) (r_use s) (w_use s) (kr s) (kw s) (cancelled s) (alive s) (nreq s) (tr s).
Definition set_ch h s := mkSt (rh s) (rspace s) (wh s) h (wconnect s) (r_use s) (w_use s) (kr s) (kw s) (cancelled s) (alive s) (nreq s) (tr s).
Definition set_wconnect b s := mkSt (rh s) (rspace s) (wh s) (ch s) b (r_use s) (w_use s) (kr s) (kw s) (cancelled s) (alive s) (nreq s) (tr s).
Definition set_r_use n s := mkSt (rh s) (rspace s) (wh s) (ch s) (wconnect s) n (w_use s) (kr s) (kw s) (cancelled s) (alive s) (nreq s) (tr s).
Definition set_w_use n s := mkSt (rh s) (rspace s) (wh s) (ch s) (wconnect s) (r_use s) n (kr s) (kw s) (cancelled s) (alive s) (nreq s) (tr s).
Definition set_kr k s := mkSt (rh s) (rspace s) (wh s) (ch s) (wconnect s) (r_use s) (w_use s) k (kw s) (cancelled s) (alive s) (nreq s) (tr s).
Definition set_kw k s := mkSt (rh s) (rspace s) (wh s) (ch s) (wconnect s) (r_use s) (w_use s) (kr s) k (cancelled s) (alive s) (nreq s) (tr s).
Definition set_cancelled b s := mkSt (rh s) (rspace s) (wh s) (ch s) (wconnect s) (r_use s) (w_use s) (kr s) (kw s) b (alive s) (nreq s) (tr s).
Definition set_alive b s := mkSt (rh s) (rspace s) (wh s) (ch s) (wconnect s) (r_use s) (w_use s) (kr s) (kw s) (cancelled s) b (nreq s) (tr s).
Definition set_nreq n s := mkSt (rh s) (rspace s) (wh s) (ch s) (wconnect s) (r_use s) (w_use s) (kr s) (kw s) (cancelled s) (alive s) n (tr s).
Definition log e s := mkSt (rh s) (rspace s) (wh s) (ch s) (wconnect s) (r_use s) (w_use s) (kr s) (kw s) (cancelled s) (alive s) (nreq s) (e :: tr s).
Definition conf := (st * list op)%type.

(** socket.c 48-56, try_free, with a hook. *)
Definition try_free (s : st) (k : list op) : outcome conf :=
  if Nat.eqb (r_use s) 0 && Nat.eqb (w_use s) 0 then Ret (set_alive false (log EvHook s), OUser :: k) else Ret (s, k).

(** socket.c 94-123, stream_read, with valid arguments (96-98 refuses NULL); [err] is the error of WSARecv, 0 if it succeeded or
    is pending. *)
Definition stream_read (s : st) (sp : nat) (err : Z) (k : list op) : outcome conf :=
  if negb (alive s) then UB
  else match kr s with
  | KIdle =>
      let n := nreq s in
      let s := set_rh (Some n) sp (set_nreq (S n) s) in
      if (err =? 0)%Z then Ret (log (EvRead n sp) (set_r_use (S (r_use s)) (set_kr KPending s)), k)
      else Ret (log (EvRefused (- err)) s, k)
  | _ => UB (* 111: the OVERLAPPED of an operation in progress is overwritten *)
  end.

(** socket.c 149-188, stream_write, with valid arguments; [total] bytes in the chain; [err] as above (also _malloca, 163). *)
Definition stream_write (s : st) (total : nat) (err : Z) (k : list op) : outcome conf :=
  if negb (alive s) then UB
  else match kw s with
  | KIdle =>
      let n := nreq s in
      let s := set_wh (Some n) (set_nreq (S n) s) in
      if (err =? 0)%Z then Ret (log (EvWrite n total) (set_w_use (S (w_use s)) (set_kw KPending s)), k)
      else Ret (log (EvRefused (- err)) s, k)
  | _ => UB
  end.

(** socket.c 280-343, cio_socket_connect, with valid arguments; [how]: an error of bind, WSAIoctl or ConnectEx; ConnectEx returns
    TRUE (its completion is queued all the same); it is pending. *)
Inductive chow := CError (e : Z) | CNow | CPending.
Definition connect (s : st) (how : chow) (k : list op) : outcome conf :=
  if negb (alive s) then UB
  else match kw s with
  | KIdle =>
      let n := nreq s in
      let s := set_nreq (S n) s in
      match how with
      | CError e => Ret (log (EvRefused (- e)) s, k)
      | CNow => Ret (log (EvConnectDone n SUCCESS) (log (EvWriteEnd (WOk 0)) (log (EvConnect n) (set_kw (KQueued (WOk 0)) s))), OUser :: OIncr :: k)
      | CPending => Ret (log (EvConnect n) (set_w_use (S (w_use s)) (set_kw KPending (set_wconnect true (set_ch (Some n) s)))), k)
      end
  | _ => UB
  end.
(** socket.c 341, after the handler has returned. *)
Definition connect_end (s : st) (k : list op) : outcome conf :=
  if negb (alive s) then UB else Ret (set_w_use (S (w_use s)) s, k).

(** socket.c 240-251, cio_socket_close, 58-62, stream_close. *)
Definition close (s : st) (k : list op) : outcome conf :=
  if negb (alive s) then UB else try_free (set_cancelled true (log EvClose s)) k.

(** socket.c 64-92, read_callback, called by iocp.c 78-107. *)
Definition read_callback (s : st) (r : rres) (k : list op) : outcome conf :=
  if negb (alive s) then UB
  else
    let s := set_r_use (pred (r_use s)) (set_kr KIdle s) in
    let call (err : Z) (bs : list N) :=
      match rh s with Some n => Ret (log (EvReadDone n err bs) s, OUser :: k) | None => UB end in
    match r with
    | RErr e => if (e =? WSA_OPERATION_ABORTED)%Z then try_free (log EvReadVoid s) k else call (- e)%Z []
    | RFin => call CIO_EOF []
    | RData bs => if Nat.eqb (length bs) 0 then call CIO_EOF [] else call SUCCESS bs
    end.
(** socket.c 125-147, write_callback. *)
Definition write_callback (s : st) (r : wres) (k : list op) : outcome conf :=
  let call (err : Z) (count : nat) :=
    match wh s with Some n => Ret (log (EvWriteDone n err count) s, OUser :: k) | None => UB end in
  match r with
  | WErr e => if (e =? WSA_OPERATION_ABORTED)%Z then try_free (log EvWriteVoid s) k else call (- e)%Z 0
  | WOk count => call SUCCESS count
  end.
(** socket.c 253-278, connect_callback; [serr]: the error of setsockopt, 0 if it succeeds. *)
Definition connect_callback (s : st) (r : wres) (serr : Z) (k : list op) : outcome conf :=
  match ch s with
  | None => UB
  | Some n =>
      match r with
      | WErr e => Ret (log (EvConnectDone n (- e)) s, OUser :: k)
      | WOk _ =>
          if (serr =? 0)%Z then Ret (log (EvConnectDone n SUCCESS) (set_wconnect false s), OUser :: k)
          else Ret (log (EvConnectDone n (- serr)) s, OUser :: k)
      end
  end.
(** iocp.c 78-107 for the write event. *)
Definition write_event (s : st) (r : wres) (serr : Z) (k : list op) : outcome conf :=
  if negb (alive s) then UB
  else
    let s := set_w_use (pred (w_use s)) (set_kw KIdle s) in
    if wconnect s then connect_callback s r serr k else write_callback s r k.

Inductive act :=
| XRead (sp : nat) (err : Z)
| XWrite (total : nat) (err : Z)
| XConnect (how : chow)
| XClose
| XReadEnd (r : rres)
| XWriteEnd (r : wres)
| XReadEvent
| XWriteEvent (serr : Z)
| XReturn
| XCont.

Definition app_runs (k : list op) : Prop := match k with [] | OUser :: _ => True | _ => False end.
Definition code (e : Z) : Prop := (0 < e)%Z.
Definition enabled (c : conf) (x : act) : Prop :=
  let '(s, k) := c in
  match x with
  | XRead _ err | XWrite _ err => app_runs k /\ (0 <= err)%Z
  | XConnect (CError e) => app_runs k /\ code e
  | XConnect _ | XClose => app_runs k
  | XReadEnd r => kr s = KPending /\
      match r with RData bs => (length bs <= rspace s)%nat /\ (bs = [] -> rspace s = 0) | RFin => True | RErr e => code e /\ (e = WSA_OPERATION_ABORTED -> cancelled s = true) end
  | XWriteEnd r => kw s = KPending /\ match r with WOk _ => True | WErr e => code e /\ (e = WSA_OPERATION_ABORTED -> cancelled s = true) end
  | XReadEvent => k = [] /\ exists r, kr s = KQueued r
  | XWriteEvent serr => k = [] /\ (0 <= serr)%Z /\ exists r, kw s = KQueued r
  | XReturn => match k with OUser :: _ => True | _ => False end
  | XCont => match k with OIncr :: _ => True | _ => False end
  end.
Definition step (c : conf) (x : act) : outcome conf :=
  let '(s, k) := c in
  match x with
  | XRead sp err => stream_read s sp err k
  | XWrite total err => stream_write s total err k
  | XConnect how => connect s how k
  | XClose => close s k
  | XReadEnd r => Ret (log (EvReadEnd r) (set_kr (KQueued r) s), k)
  | XWriteEnd r => Ret (log (EvWriteEnd r) (set_kw (KQueued r) s), k)
  | XReadEvent => match kr s with KQueued r => read_callback s r k | _ => Ret c end
  | XWriteEvent serr => match kw s with KQueued r => write_event s r serr k | _ => Ret c end
  | XReturn => Ret (s, tl k)
  | XCont => connect_end s (tl k)
  end.

(** socket.c 190-214, cio_windows_socket_init. *)
Definition start : conf := (mkSt None 0 None None false 0 0 KIdle KIdle false true 0 [], []).
Inductive reach (user : conf -> act -> Prop) : conf -> Prop :=
| reach_init : reach user start
| reach_step c x c' : reach user c -> enabled c x -> user c x -> step c x = Ret c' -> reach user c'.
