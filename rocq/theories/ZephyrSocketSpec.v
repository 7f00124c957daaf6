(** What a user of a Zephyr socket expects, in terms of the events only (newest first). *)
From Verif Require Import Base ZephyrSocket.

(** What the connection is busy with, for a user with one request at a time. *)
Inductive phase :=
| Idle
| Reading (n space : nat)                 (* a read waits for the network *)
| Received (n space : nat) (x : arrival)  (* something arrived for it, its handler was not called yet *)
| Writing (n total : nat)
| Transmitted (n total : nat) (status : Z)
| Gone.
Fixpoint phase_of (l : list ev) : phase :=
  match l with
  | [] => Idle
  | EvRead n sp :: _ => Reading n sp
  | EvWrite n t :: _ => Writing n t
  | EvArrived x :: r => match phase_of r with Reading n sp => Received n sp x | p => p end
  | EvSent s :: r => match phase_of r with Writing n t => if (s =? 0)%Z then Writing n t else Transmitted n t s | p => p end
  | EvReadDone _ _ _ :: _ | EvWriteDone _ _ _ :: _ => Idle
  | EvHook :: _ => Gone
  | EvRefused _ :: r | EvClose :: r => phase_of r
  end.
Definition number (e : ev) : option nat := match e with EvRead n _ | EvWrite n _ | EvReadDone n _ _ | EvWriteDone n _ _ => Some n | _ => None end.

(** What the handler of a read is told about an arrival. *)
Definition read_result (space : nat) (x : arrival) : Z * list N :=
  match x with Data bs => (SUCCESS, firstn space bs) | Fin => (CIO_EOF, []) | Fail e => (e, []) end.
(** What the handler of a write is told. *)
Definition write_result (total : nat) (status : Z) : Z * nat := if (status <? 0)%Z then (status, 0) else (SUCCESS, total).

(** When an event may happen, given the events before it. *)
Definition allowed (e : ev) (r : list ev) : Prop :=
  match e with
  | EvRead n _ | EvWrite n _ => phase_of r = Idle /\ Forall (fun e => forall m, number e = Some m -> m < n) r
  | EvRefused res => (res < 0)%Z /\ phase_of r = Idle
  | EvArrived x => exists n sp, phase_of r = Reading n sp
  | EvSent _ => exists n t, phase_of r = Writing n t
  | EvReadDone n err data => exists sp x, phase_of r = Received n sp x /\ (err, data) = read_result sp x
  | EvWriteDone n err count => exists t status, phase_of r = Transmitted n t status /\ (err, count) = write_result t status
  | EvClose => phase_of r <> Gone
  | EvHook => phase_of r <> Gone /\ hd_error r = Some EvClose
  end.
Fixpoint lawful (l : list ev) : Prop := match l with [] => True | e :: r => allowed e r /\ lawful r end.

(** Bytes received from the peer, and bytes handed to the application, in order. *)
Definition received (l : list ev) : list N := concat (map (fun e => match e with EvArrived (Data bs) => bs | _ => [] end) (rev l)).
Definition delivered (l : list ev) : list N := concat (map (fun e => match e with EvReadDone _ _ d => d | _ => [] end) (rev l)).

(** The uses for which the code keeps its promise: one request at a time, and no close between the end of a request and the call
    of its handler. *)
Definition careful (s : st) (x : act) : Prop :=
  match x with
  | XRead _ _ | XWrite _ _ => phase_of (tr s) = Idle
  | XClose => match phase_of (tr s) with Idle | Reading _ _ | Writing _ _ => True | _ => False end
  | _ => True
  end.
(** Moreover no packet is larger than the buffer it is read into. *)
Definition roomy (s : st) (x : act) : Prop :=
  careful s x /\ match x with XArrive (Data bs) => forall n sp, phase_of (tr s) = Reading n sp -> (length bs <= sp)%nat | _ => True end.
