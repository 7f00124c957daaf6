(** Model of the Zephyr port's event loop and timers: lib/src/platform/zephyr/eventloop.c and timer.c, for any number of
    timers on one event loop.

    The message queue is a FIFO of [CIO_ZEPHYR_EVENTLOOP_MSG_QUEUE_SIZE] entries.  Kernel (k_timer, Zephyr 1.14/2.x): the
    expiry function runs in interrupt context at any moment; k_timer_start restarts a running timer without calling its stop
    function; k_timer_stop calls the stop function, in the caller's context, only if the timer is running, and uses the timer
    once more afterwards; a queue operation from an interrupt cannot wait, so a full queue is undefined there.
    Application handlers run as entries of an explicit stack. *)
From Verif Require Import Base.

Definition SUCCESS : Z := 0%Z.
Definition OPERATION_NOT_PERMITTED : Z := (-1)%Z.
Definition OPERATION_ABORTED : Z := (-125)%Z.

(** eventloop_impl.h 63. *)
Definition QUEUE_SIZE : nat := 10.

(** timer.c 90: K_MSEC(timeout_ns / 1000000), converted to the s32_t of k_timer_start. *)
Definition to_signed32 (x : N) : Z := let v := (Z.of_N x mod 2 ^ 32)%Z in if (v <? 2 ^ 31)%Z then v else (v - 2 ^ 32)%Z.
Definition duration_ms (timeout_ns : N) : Z := to_signed32 (timeout_ns / 1000000).

(** Observable events, newest first.  [n] numbers the calls of cio_timer_expires_from_now. *)
Inductive ev :=
| EvInit (id : nat)
| EvArm (id n : nat) (ms : Z)
| EvHandler (id n : nat) (err : Z)
| EvExpired (id : nat)             (* the kernel timer ran out *)
| EvCancel (id : nat) (res : Z)    (* cio_timer_cancel was called and returns res *)
| EvClose (id : nat)
| EvHook (id : nat)
| EvStop                           (* cio_eventloop_cancel *)
| EvEnd.                           (* cio_eventloop_run returned *)

(** struct cio_timer (timer.h 74-82, zephyr/timer_impl.h 38-42).  [running]: the k_timer; [alive]: the memory may be used
    (between cio_timer_init and the close hook); [removed]: the flag of its notifier. *)
Record tm := mkTm { handler : option nat; running : bool; removed : bool; alive : bool }.
Definition set_handler h t := mkTm h (running t) (removed t) (alive t).
Definition set_running r t := mkTm (handler t) r (removed t) (alive t).
Definition set_removed r t := mkTm (handler t) (running t) r (alive t).
Definition set_alive a t := mkTm (handler t) (running t) (removed t) a.

Inductive msg := MEv (id : nat) | MStop.
Record st := mkSt { tms : nat -> tm; queue : list msg; narm : nat; going : bool; tr : list ev }.
Definition upd (f : nat -> tm) (i : nat) (t : tm) : nat -> tm := fun j => if Nat.eqb j i then t else f j.
Definition set_tm i t s := mkSt (upd (tms s) i t) (queue s) (narm s) (going s) (tr s).
Definition set_queue q s := mkSt (tms s) q (narm s) (going s) (tr s).
Definition set_narm n s := mkSt (tms s) (queue s) n (going s) (tr s).
Definition set_going g s := mkSt (tms s) (queue s) (narm s) g (tr s).
Definition log e s := mkSt (tms s) (queue s) (narm s) (going s) (e :: tr s).

(** Code that goes on after an application callback. *)
Inductive op :=
| OUser (id : nat) (err : Z)   (* the handler of timer id is running *)
| OStopEnd (id : nat)          (* the end of k_timer_stop, then of cio_timer_cancel *)
| OCloseEnd (id : nat)         (* timer.c 112-114 *)
| OHook (id : nat).            (* the close hook of timer id is running *)
Definition conf := (st * list op)%type.

(** handler(t, ...): the pointer must not be NULL. *)
Definition call_handler (s : st) (id : nat) (h : option nat) (err : Z) (k : list op) : outcome conf :=
  match h with Some n => Ret (log (EvHandler id n err) s, OUser id err :: k) | None => UB end.

(** timer.c 67-82, cio_timer_init, on memory that holds no live timer; eventloop.c 83-86, cio_zephyr_ev_init. *)
Definition init (s : st) (id : nat) (k : list op) : outcome conf :=
  Ret (log (EvInit id) (set_tm id (mkTm None false false true) s), k).

(** timer.c 84-93, cio_timer_expires_from_now: k_timer_start makes the timer run anew. *)
Definition expires_from_now (s : st) (id : nat) (ns : N) (k : list op) : outcome conf :=
  let t := tms s id in
  if negb (alive t) then UB
  else
    let n := narm s in
    let s := set_narm (S n) (set_tm id (set_running true (set_handler (Some n) t)) s) in
    Ret (log (EvArm id n (duration_ms ns)) s, k).

(** timer.c 48-55, expire: interrupt context; eventloop.c 72-76, cio_zephyr_eventloop_add_event. *)
Definition expire (s : st) (id : nat) (k : list op) : outcome conf :=
  let t := tms s id in
  if Nat.leb QUEUE_SIZE (length (queue s)) then UB
  else Ret (log (EvExpired id) (set_queue (queue s ++ [MEv id]) (set_tm id (set_running false t) s)), k).

(** k_timer_stop with timer.c 57-65, stop. *)
Definition k_timer_stop (s : st) (id : nat) (k : list op) : outcome conf :=
  let t := tms s id in
  if running t
  then call_handler (set_tm id (set_handler None (set_running false t)) s) id (handler t) OPERATION_ABORTED (OStopEnd id :: k)
  else Ret (s, k).

(** timer.c 95-103, cio_timer_cancel. *)
Definition cancel (s : st) (id : nat) (k : list op) : outcome conf :=
  let t := tms s id in
  if negb (alive t) then UB
  else match handler t with
  | None => Ret (log (EvCancel id OPERATION_NOT_PERMITTED) s, k)
  | Some _ => k_timer_stop (log (EvCancel id SUCCESS) s) id k
  end.

(** timer.c 105-115, cio_timer_close; eventloop.c 78-81, cio_zephyr_eventloop_remove_event. *)
Definition close (s : st) (id : nat) (k : list op) : outcome conf :=
  let t := tms s id in
  if negb (alive t) then UB
  else
    let s := log (EvClose id) (set_tm id (set_removed true t) s) in
    match handler t with
    | Some _ => k_timer_stop s id (OCloseEnd id :: k)
    | None => Ret (s, OCloseEnd id :: k)
    end.

(** eventloop.c 49-64, one round of cio_eventloop_run with a message in the queue; timer.c 39-46, timer_callback. *)
Definition dispatch (s : st) (k : list op) : outcome conf :=
  match queue s with
  | [] => Ret (s, k)
  | MStop :: r => Ret (log EvEnd (set_going false (set_queue r s)), k)
  | MEv id :: r =>
      let t := tms s id in
      let s := set_queue r s in
      if negb (alive t) then UB
      else if removed t then Ret (s, k)
      else call_handler (set_tm id (set_handler None t) s) id (handler t) SUCCESS k
  end.

(** eventloop.c 66-70, cio_eventloop_cancel. *)
Definition stop_loop (s : st) (k : list op) : outcome conf := Ret (log EvStop (set_queue [MStop] s), k).

Inductive act :=
| XInit (id : nat)
| XArm (id : nat) (ns : N)
| XCancel (id : nat)
| XClose (id : nat)
| XStop
| XRun                 (* the application calls cio_eventloop_run (again) *)
| XExpire (id : nat)
| XDispatch
| XReturn              (* the application's handler or hook returns *)
| XCont.               (* the code under a finished call goes on *)

Definition app_runs (k : list op) : Prop := match k with [] | OUser _ _ :: _ | OHook _ :: _ => True | _ => False end.
Definition enabled (c : conf) (x : act) : Prop :=
  let '(s, k) := c in
  match x with
  | XInit id => app_runs k /\ alive (tms s id) = false
  | XArm id ns => app_runs k /\ (ns < 2 ^ 64)%N
  | XCancel _ | XClose _ | XStop => app_runs k
  | XRun => k = [] /\ going s = false
  | XExpire id => running (tms s id) = true
  | XDispatch => k = [] /\ going s = true /\ queue s <> []
  | XReturn => match k with OUser _ _ :: _ | OHook _ :: _ => True | _ => False end
  | XCont => match k with OStopEnd _ :: _ | OCloseEnd _ :: _ => True | _ => False end
  end.
Definition step (c : conf) (x : act) : outcome conf :=
  let '(s, k) := c in
  match x with
  | XInit id => init s id k
  | XArm id ns => expires_from_now s id ns k
  | XCancel id => cancel s id k
  | XClose id => close s id k
  | XStop => stop_loop s k
  | XRun => Ret (set_going true s, k)
  | XExpire id => expire s id k
  | XDispatch => dispatch s k
  | XReturn => Ret (s, tl k)
  | XCont => match k with
    | OStopEnd id :: r => if alive (tms s id) then Ret (s, r) else UB
    | OCloseEnd id :: r => if alive (tms s id) then Ret (log (EvHook id) (set_tm id (set_alive false (tms s id)) s), OHook id :: r) else UB
    | _ => Ret c
    end
  end.

(** eventloop.c 38-43, cio_eventloop_init, and cio_eventloop_run entered; no timers yet. *)
Definition start : conf := (mkSt (fun _ => mkTm None false false false) [] 0 true [], []).

Inductive reach (user : conf -> act -> Prop) : conf -> Prop :=
| reach_init : reach user start
| reach_step c x c' : reach user c -> enabled c x -> user c x -> step c x = Ret c' -> reach user c'.
