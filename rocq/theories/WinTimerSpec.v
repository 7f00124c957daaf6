(** What a user of a Windows timer expects, in terms of the events only (newest first). *)
From Verif Require Import Base WinTimer.

(** The arming whose handler was not called yet; arming again before the timer ran out replaces it. *)
Fixpoint outstanding (l : list ev) : option nat :=
  match l with [] => None | EvArm n _ :: _ => Some n | EvHandler _ _ :: _ => None | _ :: r => outstanding r end.
(** The timer has run out since it was armed and its handler was not called yet. *)
Fixpoint due (l : list ev) : bool :=
  match l with [] => false | EvExpired :: _ => true | EvArm _ _ :: _ | EvHandler _ _ :: _ => false | _ :: r => due r end.
Fixpoint closed (l : list ev) : bool := match l with [] => false | EvClose :: _ => true | _ :: r => closed r end.
Fixpoint hooked (l : list ev) : bool := match l with [] => false | EvHook :: _ => true | _ :: r => hooked r end.
(** The application has tried to arm the timer. *)
Fixpoint used (l : list ev) : bool := match l with [] => false | EvArm _ _ :: _ | EvArmFailed _ :: _ => true | _ :: r => used r end.
(** The application has just cancelled or closed the timer. *)
Definition asked (l : list ev) : Prop := match l with EvCancel res :: _ => res = SUCCESS | EvClose :: _ => True | _ => False end.
Definition number (e : ev) : option nat := match e with EvArm n _ => Some n | EvHandler n _ => Some n | _ => None end.

(** When an event may happen, given the events before it. *)
Definition allowed (e : ev) (r : list ev) : Prop :=
  hooked r = false /\
  match e with
  | EvArm n _ => closed r = false /\ due r = false /\ Forall (fun e => forall m, number e = Some m -> m < n) r
  | EvArmFailed res => (res < 0)%Z
  | EvExpired => outstanding r <> None /\ due r = false
  | EvHandler n err => outstanding r = Some n /\
      ((err = SUCCESS /\ due r = true /\ closed r = false) \/ (err = OPERATION_ABORTED /\ due r = false /\ asked r))
  | EvCancel res => (res = SUCCESS /\ outstanding r <> None /\ due r = false) \/ ((res < 0)%Z /\ (outstanding r = None \/ due r = true))
  | EvClose => closed r = false
  | EvHook => closed r = true /\ outstanding r = None
  end.
Fixpoint lawful (l : list ev) : Prop := match l with [] => True | e :: r => allowed e r /\ lawful r end.

(** The uses for which the code keeps its promise: the timer is not used after cio_timer_close; not cancelled or closed before it
    was armed for the first time; not closed or armed between running out and the call of its handler, nor in its handler called
    with CIO_OPERATION_ABORTED; and CreateTimerQueueTimer does not fail for a timer that is armed already. *)
Definition careful (c : conf) (x : act) : Prop :=
  let '(s, k) := c in
  let l := tr s in
  match x with
  | XArm _ created => closed l = false /\ due l = false /\ ~ In (OUser OPERATION_ABORTED) k /\ (created = true \/ outstanding l = None)
  | XCancel => closed l = false /\ used l = true
  | XClose => closed l = false /\ used l = true /\ due l = false /\ ~ In (OUser OPERATION_ABORTED) k
  | _ => True
  end.
