(** What a user of a Windows server socket expects, in terms of the events only (newest first). *)
From Verif Require Import Base WinServer.

Fixpoint closed (l : list ev) : bool := match l with [] => false | EvClose :: _ => true | _ :: r => closed r end.
Fixpoint hooked (l : list ev) : bool := match l with [] => false | EvHook :: _ => true | _ :: r => hooked r end.
Fixpoint unlistened (l : list ev) : bool := match l with [] => false | EvShutListen :: _ => true | _ :: r => unlistened r end.
(** Binding, accepting has succeeded. *)
Fixpoint bound_ok (l : list ev) : bool := match l with [] => false | EvBind res :: r => (res =? SUCCESS)%Z || bound_ok r | _ :: r => bound_ok r end.
Fixpoint accepting (l : list ev) : bool := match l with [] => false | EvAccept res :: r => (res =? SUCCESS)%Z || accepting r | _ :: r => accepting r end.
(** The open sockets that belong to the library: opened, neither closed nor handed to the application. *)
Fixpoint owned (l : list ev) : list nat :=
  match l with
  | [] => []
  | EvOpen c :: r => c :: owned r
  | EvShut c :: r | EvHandler _ (Some c) :: r => filter (fun d => negb (Nat.eqb d c)) (owned r)
  | _ :: r => owned r
  end.
(** The connection that the handler was not told about yet. *)
Fixpoint waiting (l : list ev) : option nat :=
  match l with [] => None | EvConn c :: _ => Some c | EvHandler _ _ :: _ => None | _ :: r => waiting r end.
Definition number (e : ev) : option nat := match e with EvOpen c | EvConn c | EvShut c => Some c | EvHandler _ cl => cl | _ => None end.

(** When an event may happen, given the events before it. *)
Definition allowed (e : ev) (r : list ev) : Prop :=
  hooked r = false /\
  match e with
  | EvBind _ | EvAccept _ => closed r = false
  | EvOpen c => closed r = false /\ Forall (fun e => forall m, number e = Some m -> m < c) r
  | EvConn c => closed r = false /\ In c (owned r) /\ waiting r = None
  | EvFail e => closed r = true /\ e = WSA_OPERATION_ABORTED
  | EvShut c => In c (owned r)
  | EvHandler err cl => closed r = false /\ exists c, waiting r = Some c /\
      match cl with Some d => err = SUCCESS /\ d = c /\ In c (owned r) | None => (err < 0)%Z /\ ~ In c (owned r) end
  | EvClose => closed r = false
  | EvShutListen => closed r = true /\ unlistened r = false
  | EvHook => closed r = true /\ unlistened r = true /\ owned r = [] /\ waiting r = None
  end.
Fixpoint lawful (l : list ev) : Prop := match l with [] => True | e :: r => allowed e r /\ lawful r end.

(** All connections in the order of arrival, and those that the handler was told about, in that order. *)
Definition connections (l : list ev) : list nat := flat_map (fun e => match e with EvConn c => [c] | _ => [] end) (rev l).
Fixpoint told (l : list ev) : list nat :=
  match l with [] => [] | EvHandler _ _ :: r => told r ++ match waiting r with Some c => [c] | None => [] end | _ :: r => told r end.

(** The uses and environments for which the code keeps its promise.  Application: bind, then accept once, then close once; it closes a
    bound server only when it accepts, and not when a connection is in the queue.  Kernel: preparing the next connection does not
    fail, AcceptEx ends with an error only when the server was closed, and then as aborted. *)
Definition careful (c : conf) (x : act) : Prop :=
  let '(s, k) := c in
  let l := tr s in
  match x with
  | XBind _ => closed l = false
  | XAccept _ how => closed l = false /\ bound_ok l = true /\ accepting l = false /\ (forall e, how <> PEx e)
  | XClose => closed l = false /\ waiting l = None /\ (bound_ok l = true -> accepting l = true)
  | XConn => closed l = false
  | XFail e => e = WSA_OPERATION_ABORTED
  | XEvent serr how _ _ => waiting l <> None -> serr = 0%Z /\ how = POk
  | _ => True
  end.
