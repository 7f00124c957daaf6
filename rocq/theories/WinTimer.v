(** Model of a timer of the Windows port: lib/src/platform/windows/timer.c, dispatched by lib/src/platform/windows/iocp.c (78-113).

    Kernel (timer queues): a timer runs out at any moment; its callback runs in another thread, here in two steps, the begin
    ([XFire]) and memset with PostQueuedCompletionStatus ([XPost]).  DeleteTimerQueueTimer without a completion event succeeds for a
    timer that has not run out, and fails for a NULL handle and for one whose callback has begun; a handle that was deleted must
    not be used again.  A failing CreateTimerQueueTimer leaves the handle as it is, a successful one
    stores it before the timer can run out.  The queue of the completion port holds
    [posted] completions of this timer.  Application callbacks run as entries of an explicit stack. *)
From Verif Require Import Base.

Definition SUCCESS : Z := 0%Z.
(** error_code.h 59-69 with WSAEINVAL, ERROR_ACCESS_DENIED and ERROR_OPERATION_ABORTED of winerror.h. *)
Definition INVALID_ARGUMENT : Z := (-10022)%Z.
Definition OPERATION_NOT_PERMITTED : Z := (-5)%Z.
Definition OPERATION_ABORTED : Z := (-995)%Z.
(** winerror.h: ERROR_IO_PENDING. *)
Definition IO_PENDING : Z := (-997)%Z.

(** timer.c 111: (DWORD)(timeout_ns / 1000000). *)
Definition duration_ms (timeout_ns : N) : N := (timeout_ns / 1000000) mod 2 ^ 32.

(** Observable events, newest first.  [n] numbers the calls of cio_timer_expires_from_now. *)
Inductive ev :=
| EvArm (n : nat) (ms : N)
| EvArmFailed (res : Z)
| EvExpired                  (* the kernel timer ran out *)
| EvHandler (n : nat) (err : Z)
| EvCancel (res : Z)         (* cio_timer_cancel was called and returns res *)
| EvClose
| EvHook.

(** t->handler: not written yet (cio_timer_init does not set it), NULL, or the handler of an arming. *)
Inductive hval := HGarbage | HNull | HSet (n : nat).
Inductive ktimer := KOff | KRunning (h : nat) | KFiring (h : nat).
(** struct cio_timer (timer.h 74-82, windows/timer_impl.h).  [hev]: overlapped.hEvent, None for NULL; [alive]: the memory may be
    used. *)
Record st := mkSt { handler : hval; hev : option nat; kt : ktimer; posted : nat; alive : bool; narm : nat; tr : list ev }.
Definition set_handler h s := mkSt h (hev s) (kt s) (posted s) (alive s) (narm s) (tr s).
Definition set_hev h s := mkSt (handler s) h (kt s) (posted s) (alive s) (narm s) (tr s).
Definition set_kt k s := mkSt (handler s) (hev s) k (posted s) (alive s) (narm s) (tr s).
Definition set_posted p s := mkSt (handler s) (hev s) (kt s) p (alive s) (narm s) (tr s).
Definition set_alive a s := mkSt (handler s) (hev s) (kt s) (posted s) a (narm s) (tr s).
Definition set_narm n s := mkSt (handler s) (hev s) (kt s) (posted s) (alive s) n (tr s).
Definition log e s := mkSt (handler s) (hev s) (kt s) (posted s) (alive s) (narm s) (e :: tr s).

Inductive op :=
| OUser (err : Z)    (* the handler is running *)
| OCancelEnd         (* timer.c 77 *)
| OCloseEnd          (* timer.c 89-91 *)
| OHook.             (* the close hook is running *)
Definition conf := (st * list op)%type.

(** DeleteTimerQueueTimer(NULL, overlapped.hEvent, NULL). *)
Definition delete_timer (s : st) : outcome (bool * st) :=
  match hev s with
  | None => Ret (false, s)
  | Some h => match kt s with
    | KRunning h' => if Nat.eqb h h' then Ret (true, set_kt KOff s) else UB
    | KFiring h' => if Nat.eqb h h' then Ret (false, s) else UB
    | KOff => UB
    end
  end.

(** timer.c 73-81, cio_timer_cancel after the test of the handler; [logres]: what to log with the result. *)
Definition cancel_armed (s : st) (logres : Z -> st -> st) (k : list op) : outcome conf :=
  match handler s with
  | HSet n =>
      match delete_timer s with
      | UB => UB
      | Ret (true, s) => Ret (log (EvHandler n OPERATION_ABORTED) (logres SUCCESS (set_hev None s)), OUser OPERATION_ABORTED :: OCancelEnd :: k)
      | Ret (false, s) => Ret (logres INVALID_ARGUMENT s, k)
      end
  | _ => UB
  end.
(** timer.c 67-82, cio_timer_cancel. *)
Definition cancel (s : st) (k : list op) : outcome conf :=
  if negb (alive s) then UB
  else match handler s with
  | HGarbage => UB
  | HNull => Ret (log (EvCancel OPERATION_NOT_PERMITTED) s, k)
  | HSet _ => cancel_armed s (fun res s => log (EvCancel res) s) k
  end.

(** timer.c 84-93, cio_timer_close. *)
Definition close (s : st) (k : list op) : outcome conf :=
  if negb (alive s) then UB
  else
    let s := log EvClose s in
    match handler s with
    | HGarbage => UB
    | HNull => Ret (s, OCloseEnd :: k)
    | HSet _ => cancel_armed s (fun _ s => s) (OCloseEnd :: k)
    end.

(** timer.c 95-117, cio_timer_expires_from_now; [created]: the result of CreateTimerQueueTimer. *)
Definition expires_from_now (s : st) (ns : N) (created : bool) (k : list op) : outcome conf :=
  if negb (alive s) then UB
  else
    let n := narm s in
    let s := set_handler (HSet n) (set_narm (S n) s) in
    let create s :=
      if created then Ret (log (EvArm n (duration_ms ns)) (set_kt (KRunning n) (set_hev (Some n) s)), k)
      else Ret (log (EvArmFailed INVALID_ARGUMENT) s, k) in
    match hev s with
    | None => create s
    | Some _ => match delete_timer s with
      | UB => UB
      | Ret (true, s) => create s
      | Ret (false, s) => Ret (log (EvArmFailed IO_PENDING) s, k)
      end
    end.

(** timer.c 36-45, timer_callback, in a thread of the pool: its begin, and 42-43. *)
Definition fire (s : st) (k : list op) : outcome conf :=
  match kt s with KRunning h => Ret (log EvExpired (set_kt (KFiring h) s), k) | _ => Ret (s, k) end.
Definition post (s : st) (k : list op) : outcome conf :=
  match kt s with
  | KFiring _ => if alive s then Ret (set_posted (S (posted s)) (set_hev None (set_kt KOff s)), k) else UB
  | _ => Ret (s, k)
  end.

(** iocp.c 96-98, 104-105 with timer.c 47-54, timer_event_callback. *)
Definition dispatch (s : st) (k : list op) : outcome conf :=
  if negb (alive s) then UB
  else match handler s with
  | HSet n => Ret (log (EvHandler n SUCCESS) (set_handler HNull (set_posted (pred (posted s)) s)), OUser SUCCESS :: k)
  | _ => UB
  end.

Inductive act :=
| XArm (ns : N) (created : bool)
| XCancel
| XClose
| XFire
| XPost
| XDispatch
| XReturn
| XCont.
Definition app_runs (k : list op) : Prop := match k with [] | OUser _ :: _ | OHook :: _ => True | _ => False end.
Definition enabled (c : conf) (x : act) : Prop :=
  let '(s, k) := c in
  match x with
  | XArm ns _ => app_runs k /\ (ns < 2 ^ 64)%N
  | XCancel | XClose => app_runs k
  | XFire => exists h, kt s = KRunning h
  | XPost => exists h, kt s = KFiring h
  | XDispatch => k = [] /\ 0 < posted s
  | XReturn => match k with OUser _ :: _ | OHook :: _ => True | _ => False end
  | XCont => match k with OCancelEnd :: _ | OCloseEnd :: _ => True | _ => False end
  end.
Definition step (c : conf) (x : act) : outcome conf :=
  let '(s, k) := c in
  match x with
  | XArm ns created => expires_from_now s ns created k
  | XCancel => cancel s k
  | XClose => close s k
  | XFire => fire s k
  | XPost => post s k
  | XDispatch => dispatch s k
  | XReturn => Ret (s, tl k)
  | XCont => match k with
    | OCancelEnd :: r => if alive s then Ret (set_handler HNull s, r) else UB
    | OCloseEnd :: r => if alive s then Ret (set_alive false (log EvHook s), OHook :: r) else UB
    | _ => Ret c
    end
  end.

(** timer.c 56-65, cio_timer_init: the handler is not set. *)
Definition start : conf := (mkSt HGarbage None KOff 0 true 0 [], []).
Inductive reach (user : conf -> act -> Prop) : conf -> Prop :=
| reach_init : reach user start
| reach_step c x c' : reach user c -> enabled c x -> user c x -> step c x = Ret c' -> reach user c'.
