(** What a user expects of a timer, in terms of the observable events only. *)
From Verif Require Import Base TimerModel.

(** The arming that is still waiting for its handler call. *)
Definition out_step (o : option nat) (e : tev) : option nat :=
  match e with
  | EvArm id _ => Some id
  | EvHandler id _ => match o with Some id' => if Nat.eqb id id' then None else o | None => None end
  | _ => o
  end.
Definition outstanding (tr : list tev) : option nat := fold_left out_step tr None.

Definition armings (id : nat) (tr : list tev) : nat :=
  length (filter (fun e => match e with EvArm i _ => Nat.eqb i id | _ => false end) tr).
Definition calls (id : nat) (tr : list tev) : nat :=
  length (filter (fun e => match e with EvHandler i _ => Nat.eqb i id | _ => false end) tr).
Definition closings (tr : list tev) : nat := length (filter (fun e => match e with EvClose => true | _ => false end) tr).
Definition fd_closings (tr : list tev) : nat := length (filter (fun e => match e with EvFdClosed => true | _ => false end) tr).
Definition hooks (tr : list tev) : nat := length (filter (fun e => match e with EvHook => true | _ => false end) tr).

(** The kernel's timer functions do not fail (they cannot for a valid timer and
    a valid specification). *)
Definition kernel_works (ch : choice) : Prop := c_settime ch = None /\ c_read ch = None.
Definition in_aborted_handler (k : list op) : Prop := In (OUser OPERATION_ABORTED) k.

(** The uses of a timer for which the code keeps its promise: a timer that is
    armed is not armed again before its handler was called, no timeout of zero,
    the timer is not used from within a handler called with
    CIO_OPERATION_ABORTED, nor after cio_timer_close. *)
Definition careful (c : config) (x : act) : Prop :=
  let '(t, k) := c in
  match x with
  | XArm ns ch => kernel_works ch /\ (0 < ns)%N /\ outstanding (tr t) = None /\ ~ in_aborted_handler k /\ ~ In EvClose (tr t)
  | XCancel ch | XClose ch => kernel_works ch /\ ~ in_aborted_handler k /\ ~ In EvClose (tr t)
  | XDispatch ch => kernel_works ch
  | _ => True
  end.
