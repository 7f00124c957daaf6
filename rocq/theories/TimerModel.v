(** Model of lib/src/platform/linux/timer.c: one timer object, its timerfd, the
    event loop's dispatching of it, and an application whose handlers may call
    the timer API again.

    The C call stack is explicit: the handler of the timer runs as an [OUser]
    entry on top of the code that called it, so re-entrant calls are ordinary
    steps.  Kernel: a timerfd is disarmed, running or expired (timerfd_create(2):
    settime with a zero value disarms, settime resets the expiration count,
    read returns EAGAIN unless expired and resets the count).  *)
From Verif Require Import Base.
Local Open Scope Z_scope.

(** lib/include/cio/error_code.h (values of enum cio_error on linux). *)
Definition SUCCESS : Z := 0.
Definition OPERATION_NOT_PERMITTED : Z := -1.
Definition OPERATION_ABORTED : Z := -125.

(** timer.c 43. *)
Definition NSECONDS_IN_SECONDS : N := 1000000000%N.

(** C conversion of a uint64_t to a signed 64-bit type (time_t, long on the
    LP64 linux ABI; gcc and clang wrap modulo 2^64). *)
Definition to_signed64 (x : N) : Z :=
  let v := Z.of_N x mod 2 ^ 64 in if v <? 2 ^ 63 then v else v - 2 ^ 64.
(** ... and back: (uint64_t)seconds. *)
Definition to_unsigned64 (z : Z) : N := Z.to_N (z mod 2 ^ 64).

(** struct itimerspec: it_interval and it_value as (tv_sec, tv_nsec). *)
Record itimerspec := Spec { interval_sec : Z; interval_nsec : Z; value_sec : Z; value_nsec : Z }.

(** timer.c 45-52, convert_timeoutns_to_itimerspec, with the casts and the
    wrap-around of uint64_t subtraction and multiplication. *)
Definition convert_timeoutns_to_itimerspec (timeout : N) : itimerspec :=
  let seconds := to_signed64 (timeout / NSECONDS_IN_SECONDS) in
  let prod := ((to_unsigned64 seconds * NSECONDS_IN_SECONDS) mod 2 ^ 64)%N in
  let nanos := to_signed64 ((timeout + 2 ^ 64 - prod) mod 2 ^ 64)%N in
  Spec 0 0 seconds nanos.
Local Close Scope Z_scope.

(** What timerfd_settime does with a specification: the kernel refuses (EINVAL)
    negative seconds or nanoseconds outside 0..999999999, a zero value
    disarms, anything else starts the timer.  The interval is always zero here,
    so the timer is one-shot. *)
Inductive ktimer := KDisarmed | KRunning | KExpired.
Definition spec_valid (t : itimerspec) : bool :=
  ((0 <=? value_sec t) && (0 <=? value_nsec t) && (value_nsec t <? 1000000000))%Z.
Definition spec_zero (t : itimerspec) : bool := ((value_sec t =? 0) && (value_nsec t =? 0))%Z.

(** Observable events. [id] numbers the calls of cio_timer_expires_from_now. *)
Inductive tev :=
| EvArm (id : nat) (ns : N)          (* expires_from_now programmed the kernel timer; the call returns CIO_SUCCESS *)
| EvArmFailed (id : nat) (err : Z)   (* expires_from_now returned err *)
| EvHandler (id : nat) (err : Z)     (* the timer handler given to call id was called with err *)
| EvCancel                           (* cancel (or close) of an armed timer stopped the kernel timer *)
| EvCancelFailed (err : Z)           (* cio_timer_cancel returned err, no handler call *)
| EvExpired                          (* the kernel timer ran out *)
| EvClose                            (* cio_timer_close was called *)
| EvFdClosed                         (* the file descriptor was closed *)
| EvHook.                            (* the close hook was called *)

(** struct cio_timer (timer.h 74-82, timer_impl.h 39-42): [handler] is the id of
    the arming whose handler pointer is stored, None for NULL.  [alive] is
    whether the memory of the struct may still be used: the close hook may free
    it.  [in_loop]: the notifier is in the event loop. *)
Record tmr := mkT { handler : option nat; kern : ktimer; in_loop : bool; fd_open : bool; alive : bool; narm : nat; tr : list tev }.
Definition set_handler h t := mkT h (kern t) (in_loop t) (fd_open t) (alive t) (narm t) (tr t).
Definition set_kern k t := mkT (handler t) k (in_loop t) (fd_open t) (alive t) (narm t) (tr t).
Definition log e t := mkT (handler t) (kern t) (in_loop t) (fd_open t) (alive t) (narm t) (tr t ++ [e]).
Definition next_id t := mkT (handler t) (kern t) (in_loop t) (fd_open t) (alive t) (S (narm t)) (tr t).
Definition out_of_loop t := mkT (handler t) (kern t) false (fd_open t) (alive t) (narm t) (tr t).
Definition close_fd t := mkT (handler t) (kern t) (in_loop t) false (alive t) (narm t) (tr t).
Definition free_mem t := mkT (handler t) (kern t) (in_loop t) (fd_open t) false (narm t) (tr t).

(** Continuations. *)
Inductive op :=
| OUser (err : Z)   (* the application's timer handler is running; it was called with err *)
| OCancelEnd        (* timer.c 145-146: after the handler call in cio_timer_cancel *)
| OCloseEnd         (* timer.c 159-162: after cio_timer_cancel in cio_timer_close *)
| OHook.            (* the application's close hook is running *)

Definition config := (tmr * list op)%type.

(** Choices of the environment for one call: [c_settime] makes timerfd_settime
    fail with the given errno, [c_read] makes read fail with the given errno
    (not EAGAIN), [c_quick] lets the timer run out before the read in
    cio_timer_expires_from_now. *)
Record choice := Choice { c_settime : option Z; c_read : option Z; c_quick : bool }.
Definition ok_choice : choice := Choice None None false.

(** Calling a function pointer: NULL is undefined behaviour. *)
Definition call_handler (t : tmr) (h : option nat) (err : Z) (k : list op) : outcome config :=
  match h with Some id => Ret (log (EvHandler id err) t, OUser err :: k) | None => UB end.

(** timer.c 54-78, timer_read; [perr] is error != CIO_EPOLL_SUCCESS (never the
    case for calls coming from the event loop, epoll.c 202, or from line 129).
    [serr] stands for the result of cio_linux_get_socket_error. *)
Definition timer_read (t : tmr) (perr : bool) (serr : Z) (ch : choice) (k : list op) : outcome config :=
  if perr then call_handler (set_handler None t) (handler t) serr k
  else match c_read ch with
  | Some e => call_handler t (handler t) (- e)%Z k           (* 70-72: handler pointer not cleared *)
  | None => match kern t with
    | KExpired => call_handler (set_handler None (set_kern KDisarmed t)) (handler t) SUCCESS k   (* 74-76 *)
    | _ => Ret (t, k)                                         (* EAGAIN *)
    end
  end.

(** timerfd_settime(fd, 0, &spec, NULL): inl errno or inr new kernel state. *)
Definition settime (ch : choice) (sp : itimerspec) : Z + ktimer :=
  match c_settime ch with
  | Some e => inl e
  | None => if spec_valid sp then inr (if spec_zero sp then KDisarmed else KRunning) else inl 22%Z
  end.
(** The timer may run out at once (a timeout of a few nanoseconds). *)
Definition quick (ch : choice) (t : tmr) : tmr :=
  match kern t with KRunning => if c_quick ch then log EvExpired (set_kern KExpired t) else t | _ => t end.

(** timer.c 116-131, cio_timer_expires_from_now. *)
Definition expires_from_now (t : tmr) (ns : N) (ch : choice) (k : list op) : outcome config :=
  if negb (alive t) then UB
  else
    let id := narm t in
    let t := next_id (set_handler (Some id) t) in
    match settime ch (convert_timeoutns_to_itimerspec ns) with
    | inl e => Ret (log (EvArmFailed id (- e)%Z) t, k)
    | inr ks => timer_read (quick ch (log (EvArm id ns) (set_kern ks t))) false 0%Z ch k
    end.

(** timer.c 133-150, cio_timer_cancel. *)
Definition cancel (t : tmr) (ch : choice) (k : list op) : outcome config :=
  if negb (alive t) then UB
  else match handler t with
  | None => Ret (log (EvCancelFailed OPERATION_NOT_PERMITTED) t, k)
  | Some id => match settime ch (Spec 0 0 0 0) with
    | inl e => Ret (log (EvCancelFailed (- e)%Z) t, k)
    | inr ks => call_handler (log EvCancel (set_kern ks t)) (Some id) OPERATION_ABORTED (OCancelEnd :: k)
    end
  end.

(** timer.c 152-163, cio_timer_close; the rest from line 159 on is [OCloseEnd]. *)
Definition close (t : tmr) (ch : choice) (k : list op) : outcome config :=
  if negb (alive t) then UB
  else
    let t := out_of_loop (log EvClose t) in
    match handler t with
    | Some _ => cancel t ch (OCloseEnd :: k)
    | None => Ret (t, OCloseEnd :: k)
    end.

(** Steps.  [XCont]: the code under the finished call goes on; [XReturn]: the
    application's handler or hook returns; [XDispatch]: the event loop calls
    timer_read, also without cause (an event of the same batch may be stale);
    [XExpire]: the kernel timer runs out. *)
Inductive act :=
| XExpire
| XDispatch (ch : choice)
| XArm (ns : N) (ch : choice)
| XCancel (ch : choice)
| XClose (ch : choice)
| XReturn
| XCont.

(** Where application code runs. *)
Definition app_runs (k : list op) : bool := match k with [] => true | OUser _ :: _ => true | OHook :: _ => true | _ => false end.

Definition enabled (c : config) (x : act) : Prop :=
  let '(t, k) := c in
  match x with
  | XExpire => kern t = KRunning
  | XDispatch _ => k = [] /\ in_loop t = true
  | XArm ns _ => app_runs k = true /\ (ns < 2 ^ 64)%N
  | XCancel _ | XClose _ => app_runs k = true
  | XReturn => match k with OUser _ :: _ | OHook :: _ => True | _ => False end
  | XCont => match k with OCancelEnd :: _ | OCloseEnd :: _ => True | _ => False end
  end.

Definition step (c : config) (x : act) : outcome config :=
  let '(t, k) := c in
  match x with
  | XExpire => Ret (log EvExpired (set_kern KExpired t), k)
  | XDispatch ch => if alive t then timer_read t false 0%Z ch k else UB
  | XArm ns ch => expires_from_now t ns ch k
  | XCancel ch => cancel t ch k
  | XClose ch => close t ch k
  | XReturn => match k with OUser _ :: r | OHook :: r => Ret (t, r) | _ => Ret c end
  | XCont => match k with
    | OCancelEnd :: r => if alive t then Ret (set_handler None t, r) else UB                 (* 145: writes to the struct *)
    | OCloseEnd :: r => if alive t then Ret (free_mem (log EvHook (log EvFdClosed (close_fd t))), OHook :: r) else UB   (* 159-162 *)
    | _ => Ret c
    end
  end.

(** timer.c 80-114, cio_timer_init, in the case of success. *)
Definition timer_init : config := (mkT None KDisarmed true true true 0 [], []).

(** Reachability for a kind of application and environment [user]. *)
Inductive reach (user : config -> act -> Prop) : config -> Prop :=
| reach_init : reach user timer_init
| reach_step c x c' : reach user c -> enabled c x -> user c x -> step c x = Ret c' -> reach user c'.
Definition anyone (c : config) (x : act) : Prop := True.
