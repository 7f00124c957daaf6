(** What a user of a Zephyr server socket expects, in terms of the events only (newest first). *)
From Verif Require Import Base ZephyrServer.

Inductive phase :=
| Fresh
| Listening
| Waiting (c : nat)       (* a connection was not handed to the application yet *)
| Failed (e : Z)          (* a failure was not reported yet *)
| Refusing (c : nat)      (* the application had no memory for the connection *)
| Gone.
Fixpoint phase_of (l : list ev) : phase :=
  match l with
  | [] => Fresh
  | EvListen :: _ => Listening
  | EvAccept _ :: r | EvClose :: r => phase_of r
  | EvConn c :: _ => Waiting c
  | EvConnFail e :: _ => Failed e
  | EvHandler err None :: r => match phase_of r with Waiting c => Refusing c | _ => Listening end
  | EvHandler err (Some _) :: _ => Listening
  | EvPut _ :: _ => Listening
  | EvHook :: _ => Gone
  end.
(** When an event may happen, given the events before it. *)
Definition allowed (e : ev) (r : list ev) : Prop :=
  match e with
  | EvListen => phase_of r = Fresh
  | EvAccept res => res = SUCCESS /\ hd_error r = Some EvListen \/ (res < 0)%Z /\ phase_of r = Fresh
  | EvConn c => phase_of r = Listening /\ ~ In (EvConn c) r
  | EvConnFail e => phase_of r = Listening
  | EvHandler err (Some c) => err = SUCCESS /\ phase_of r = Waiting c
  | EvHandler err None => (err = NO_MEMORY /\ exists c, phase_of r = Waiting c) \/ phase_of r = Failed err
  | EvPut c => phase_of r = Refusing c
  | EvClose => phase_of r <> Gone
  | EvHook => phase_of r <> Gone /\ hd_error r = Some EvClose
  end.
Fixpoint lawful (l : list ev) : Prop := match l with [] => True | e :: r => allowed e r /\ lawful r end.

(** Connections set up, and connections dealt with: handed to the application or closed; oldest first. *)
Definition connections (l : list ev) : list nat := flat_map (fun e => match e with EvConn c => [c] | _ => [] end) (rev l).
Definition settled (l : list ev) : list nat := flat_map (fun e => match e with EvHandler _ (Some c) | EvPut c => [c] | _ => [] end) (rev l).

(** The uses for which the code keeps its promise.  Application: it calls accept once, and does not close while a connection or a
    failure waits to be reported, nor in the handler that reports the lack of memory.  Network: accepting does not fail once listening works, and the next
    connection comes after the one before was dealt with. *)
Definition careful (c : conf) (x : act) : Prop :=
  let '(s, k) := c in
  match x with
  | XAccept _ aret => phase_of (tr s) = Fresh /\ (0 <= aret)%Z
  | XConn | XConnFail _ => phase_of (tr s) = Listening
  | XClose => match phase_of (tr s) with Fresh | Listening => True | _ => False end
  | _ => True
  end.
