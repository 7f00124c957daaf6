(** What a user of the Zephyr timers expects, in terms of the events only (newest first). *)
From Verif Require Import Base ZephyrTimer.

(** The arming of a timer whose handler has not been called yet (and will not be called any more once the timer is gone). *)
Fixpoint outstanding (id : nat) (l : list ev) : option nat :=
  match l with
  | [] => None
  | EvArm i n _ :: r => if Nat.eqb i id then Some n else outstanding id r
  | EvHandler i _ _ :: r | EvHook i :: r => if Nat.eqb i id then None else outstanding id r
  | _ :: r => outstanding id r
  end.
(** The timer has run out since it was armed and its handler was not called yet, and the event loop was not cancelled since. *)
Fixpoint due (id : nat) (l : list ev) : bool :=
  match l with
  | [] => false
  | EvExpired i :: r => if Nat.eqb i id then true else due id r
  | EvArm i _ _ :: r | EvHandler i _ _ :: r => if Nat.eqb i id then false else due id r
  | EvStop :: _ => false
  | _ :: r => due id r
  end.
(** The timer was initialised and not closed since. *)
Fixpoint usable (id : nat) (l : list ev) : bool :=
  match l with
  | [] => false
  | EvInit i :: r => if Nat.eqb i id then true else usable id r
  | EvClose i :: r => if Nat.eqb i id then false else usable id r
  | _ :: r => usable id r
  end.
(** Its close hook was called and it was not initialised again. *)
Fixpoint hooked (id : nat) (l : list ev) : bool :=
  match l with
  | [] => false
  | EvInit i :: r => if Nat.eqb i id then false else hooked id r
  | EvHook i :: r => if Nat.eqb i id then true else hooked id r
  | _ :: r => hooked id r
  end.
(** The application has just cancelled or closed the timer. *)
Definition asked (id : nat) (l : list ev) : Prop :=
  match l with EvCancel i res :: _ => i = id /\ res = SUCCESS | EvClose i :: _ => i = id | _ => False end.
(** The number of an arming that an event talks about. *)
Definition number (e : ev) : option nat := match e with EvArm _ n _ => Some n | EvHandler _ n _ => Some n | _ => None end.

(** When an event may happen, given the events before it. *)
Definition allowed (e : ev) (r : list ev) : Prop :=
  match e with
  | EvInit id => usable id r = false
  | EvArm id n _ => outstanding id r = None /\ Forall (fun e => forall m, number e = Some m -> m < n) r
  | EvHandler id n err => outstanding id r = Some n /\ hooked id r = false /\
      ((err = SUCCESS /\ due id r = true) \/ (err = OPERATION_ABORTED /\ due id r = false /\ asked id r))
  | EvExpired id => outstanding id r <> None /\ due id r = false /\ hooked id r = false
  | EvCancel id res => (res = SUCCESS /\ outstanding id r <> None) \/ (res = OPERATION_NOT_PERMITTED /\ outstanding id r = None)
  | EvClose id => usable id r = true
  | EvHook id => usable id r = false /\ hooked id r = false /\ (outstanding id r = None \/ In EvStop r)
  | EvStop | EvEnd => True
  end.
Fixpoint lawful (l : list ev) : Prop := match l with [] => True | e :: r => allowed e r /\ lawful r end.

(** Timers that ran out, and timers whose handler was told so, newest first. *)
Definition expiries (l : list ev) : list nat := flat_map (fun e => match e with EvExpired i => [i] | _ => [] end) l.
Definition told (l : list ev) : list nat := flat_map (fun e => match e with EvHandler i _ err => if Z.eqb err SUCCESS then [i] else [] | _ => [] end) l.

(** The uses for which the code keeps its promise: fewer timers than the queue has entries; a timer is used only between
    cio_timer_init and cio_timer_close and not armed again before its handler was called; it is not closed from its own
    handler called with CIO_OPERATION_ABORTED, nor between running out and the call of its handler. *)
Definition careful (c : conf) (x : act) : Prop :=
  let '(s, k) := c in
  match x with
  | XInit id => S id < QUEUE_SIZE
  | XArm id ns => usable id (tr s) = true /\ outstanding id (tr s) = None
  | XCancel id => usable id (tr s) = true
  | XClose id => usable id (tr s) = true /\ due id (tr s) = false /\ ~ In (OUser id OPERATION_ABORTED) k
  | _ => True
  end.
