(** Model of the stream of a serial port on Windows: lib/src/platform/windows/uart.c 45-185 and 529-539, with the completion port
    of lib/src/platform/windows/iocp.c (78-113) reduced to the completions of this port.

    Kernel: an overlapped operation ends exactly once, with a completion in the queue (also if ReadFile or WriteFile return TRUE);
    an OVERLAPPED structure may be used for another operation only after its completion was taken from the queue; CancelIo makes
    the pending operations end, with ERROR_OPERATION_ABORTED unless they end otherwise first; before that no operation ends that
    way.  A read with the timeouts that cio_uart_init sets (uart.c 490-492) ends without data after 2^32 - 2 ms ([RTimeout]).  A
    write puts on the line what is in the buffer when the driver looks at it.  Application callbacks run as entries of an explicit
    stack.  The handle is closed together with the call of the hook (48-51) and not shown. *)
From Verif Require Import Base.

Definition SUCCESS : Z := 0%Z.
Definition CIO_EOF : Z := 1%Z.
(** winerror.h. *)
Definition ERROR_OPERATION_ABORTED : Z := 995%Z.

(** How the kernel ends a read and a write ([sent]: the bytes that went over the line). *)
Inductive rres := RData (bs : list N) | RTimeout | RErr (e : Z).
Inductive wres := WOk (sent : list N) | WErr (e : Z).
Inductive kstate (A : Type) := KIdle | KPending | KQueued (r : A).
Arguments KIdle {A}. Arguments KPending {A}. Arguments KQueued {A} r.

(** Observable events, newest first; requests are numbered.  [EvReadEnd], [EvWriteEnd]: the kernel ends an operation;
    [EvReadVoid], [EvWriteVoid]: the event loop takes an aborted completion from the queue. *)
Inductive ev :=
| EvRead (n space : nat)
| EvWrite (n : nat) (data : list N)
| EvRefused (res : Z)
| EvReadEnd (r : rres)
| EvWriteEnd (r : wres)
| EvReadDone (n : nat) (err : Z) (data : list N)
| EvWriteDone (n : nat) (err : Z) (count : nat)
| EvReadVoid
| EvWriteVoid
| EvClose
| EvHook.

(** struct cio_uart (uart.h, windows/uart_impl.h): handlers, the counters overlapped_operations_in_use of both events.  [kr], [kw]:
    the operations in the kernel; [rspace]: the size given to it; [wbuf]: what the buffer of a write held when WriteFile was called
    (it is freed before the function returns, uart.c 177); [alive]: the memory may be used. *)
Record st := mkSt { rh : option nat; rspace : nat; wh : option nat; wbuf : list N; r_use : nat; w_use : nat;
  kr : kstate rres; kw : kstate wres; cancelled : bool; alive : bool; nreq : nat; tr : list ev }.
Definition set_rh h sp s := mkSt h sp (wh s) (wbuf s) (r_use s) (w_use s) (kr s) (kw s) (cancelled s) (alive s) (nreq s) (tr s).
Definition set_wh h b s := mkSt (rh s) (rspace s) h b (r_use s) (w_use s) (kr s) (kw s) (cancelled s) (alive s) (nreq s) (tr s).
Definition set_r_use n s := mkSt (rh s) (rspace s) (wh s) (wbuf s) n (w_use s) (kr s) (kw s) (cancelled s) (alive s) (nreq s) (tr s).
Definition set_w_use n s := mkSt (rh s) (rspace s) (wh s) (wbuf s) (r_use s) n (kr s) (kw s) (cancelled s) (alive s) (nreq s) (tr s).
Definition set_kr k s := mkSt (rh s) (rspace s) (wh s) (wbuf s) (r_use s) (w_use s) k (kw s) (cancelled s) (alive s) (nreq s) (tr s).
Definition set_kw k s := mkSt (rh s) (rspace s) (wh s) (wbuf s) (r_use s) (w_use s) (kr s) k (cancelled s) (alive s) (nreq s) (tr s).
Definition set_cancelled b s := mkSt (rh s) (rspace s) (wh s) (wbuf s) (r_use s) (w_use s) (kr s) (kw s) b (alive s) (nreq s) (tr s).
Definition set_alive b s := mkSt (rh s) (rspace s) (wh s) (wbuf s) (r_use s) (w_use s) (kr s) (kw s) (cancelled s) b (nreq s) (tr s).
Definition set_nreq n s := mkSt (rh s) (rspace s) (wh s) (wbuf s) (r_use s) (w_use s) (kr s) (kw s) (cancelled s) (alive s) n (tr s).
Definition log e s := mkSt (rh s) (rspace s) (wh s) (wbuf s) (r_use s) (w_use s) (kr s) (kw s) (cancelled s) (alive s) (nreq s) (e :: tr s).
Inductive op := OUser.
Definition conf := (st * list op)%type.

(** uart.c 45-53, try_free, with a hook. *)
Definition try_free (s : st) (k : list op) : outcome conf :=
  if Nat.eqb (r_use s) 0 && Nat.eqb (w_use s) 0 then Ret (set_alive false (log EvHook s), OUser :: k) else Ret (s, k).

(** uart.c 107-130, stream_read, with valid arguments (109-111 refuses NULL); [err] is the error of ReadFile, 0 if it succeeded or
    is pending. *)
Definition stream_read (s : st) (sp : nat) (err : Z) (k : list op) : outcome conf :=
  if negb (alive s) then UB
  else match kr s with
  | KIdle =>
      let n := nreq s in
      let s := set_rh (Some n) sp (set_nreq (S n) s) in
      if (err =? 0)%Z then Ret (log (EvRead n sp) (set_r_use (S (r_use s)) (set_kr KPending s)), k)
      else Ret (log (EvRefused (- err)) s, k)
  | _ => UB (* 118: the OVERLAPPED of an operation in progress is overwritten *)
  end.

(** uart.c 143-163: the elements of the chain are copied into one buffer. *)
Fixpoint gather (chain : list (list N)) (buf : list N) : list N := match chain with [] => buf | e :: r => gather r (buf ++ e) end.
(** uart.c 132-179, stream_write, with valid arguments; [err] as above (also _malloca, 152-155). *)
Definition stream_write (s : st) (chain : list (list N)) (err : Z) (k : list op) : outcome conf :=
  if negb (alive s) then UB
  else match kw s with
  | KIdle =>
      let n := nreq s in
      let buf := gather chain [] in
      let s := set_wh (Some n) buf (set_nreq (S n) s) in
      if (err =? 0)%Z then Ret (log (EvWrite n (concat chain)) (set_w_use (S (w_use s)) (set_kw KPending s)), k)
      else Ret (log (EvRefused (- err)) s, k)
  | _ => UB
  end.

(** uart.c 529-539, cio_uart_close, 181-185, stream_close. *)
Definition close (s : st) (k : list op) : outcome conf :=
  if negb (alive s) then UB else try_free (set_cancelled true (log EvClose s)) k.

(** uart.c 55-82, read_callback, called by iocp.c 78-107. *)
Definition read_callback (s : st) (r : rres) (k : list op) : outcome conf :=
  if negb (alive s) then UB
  else
    let s := set_r_use (pred (r_use s)) (set_kr KIdle s) in
    let call (err : Z) (bs : list N) :=
      match rh s with Some n => Ret (log (EvReadDone n err bs) s, OUser :: k) | None => UB end in
    match r with
    | RErr e => if (e =? ERROR_OPERATION_ABORTED)%Z then try_free (log EvReadVoid s) k else call (- e)%Z []
    | RTimeout => call CIO_EOF []
    | RData bs => if Nat.eqb (length bs) 0 then call CIO_EOF [] else call SUCCESS bs
    end.
(** uart.c 84-105, write_callback; 101 negates the error twice. *)
Definition write_callback (s : st) (r : wres) (k : list op) : outcome conf :=
  if negb (alive s) then UB
  else
    let s := set_w_use (pred (w_use s)) (set_kw KIdle s) in
    let call (err : Z) (count : nat) :=
      match wh s with Some n => Ret (log (EvWriteDone n err count) s, OUser :: k) | None => UB end in
    match r with
    | WErr e => if (e =? ERROR_OPERATION_ABORTED)%Z then try_free (log EvWriteVoid s) k else call (- (- e))%Z 0
    | WOk sent => call SUCCESS (length sent)
    end.

Inductive act :=
| XRead (sp : nat) (err : Z)
| XWrite (chain : list (list N)) (err : Z)
| XClose
| XReadEnd (r : rres)
| XWriteEnd (r : wres)
| XReadEvent
| XWriteEvent
| XReturn.

Definition app_runs (k : list op) : Prop := True.
Definition code (e : Z) : Prop := (0 < e)%Z.
(** [XWriteEnd]: the driver takes the bytes from a buffer that is freed already; only their number is certain. *)
Definition enabled (c : conf) (x : act) : Prop :=
  let '(s, k) := c in
  match x with
  | XRead _ err | XWrite _ err => app_runs k /\ (0 <= err)%Z
  | XClose => app_runs k
  | XReadEnd r => kr s = KPending /\
      match r with RData bs => (length bs <= rspace s)%nat /\ (bs = [] -> rspace s = 0) | RTimeout => True | RErr e => code e /\ (e = ERROR_OPERATION_ABORTED -> cancelled s = true) end
  | XWriteEnd r => kw s = KPending /\ match r with WOk sent => (length sent <= length (wbuf s))%nat | WErr e => code e /\ (e = ERROR_OPERATION_ABORTED -> cancelled s = true) end
  | XReadEvent => k = [] /\ exists r, kr s = KQueued r
  | XWriteEvent => k = [] /\ exists r, kw s = KQueued r
  | XReturn => match k with OUser :: _ => True | _ => False end
  end.
Definition step (c : conf) (x : act) : outcome conf :=
  let '(s, k) := c in
  match x with
  | XRead sp err => stream_read s sp err k
  | XWrite chain err => stream_write s chain err k
  | XClose => close s k
  | XReadEnd r => Ret (log (EvReadEnd r) (set_kr (KQueued r) s), k)
  | XWriteEnd r => Ret (log (EvWriteEnd r) (set_kw (KQueued r) s), k)
  | XReadEvent => match kr s with KQueued r => read_callback s r k | _ => Ret c end
  | XWriteEvent => match kw s with KQueued r => write_callback s r k | _ => Ret c end
  | XReturn => Ret (s, tl k)
  end.

(** uart.c 507-518, the end of cio_uart_init. *)
Definition start : conf := (mkSt None 0 None [] 0 0 KIdle KIdle false true 0 [], []).
Inductive reach (user : conf -> act -> Prop) : conf -> Prop :=
| reach_init : reach user start
| reach_step c x c' : reach user c -> enabled c x -> user c x -> step c x = Ret c' -> reach user c'.
