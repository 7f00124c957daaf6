(** What a user of a Windows socket expects, in terms of the events only (newest first). *)
From Verif Require Import Base WinSocket.

(** The reading direction: nothing, a read in the kernel, a read that ended whose handler was not called yet. *)
Inductive rphase := RFree | RBusy (n space : nat) | REnded (n space : nat) (r : rres).
Fixpoint reading (l : list ev) : rphase :=
  match l with
  | [] => RFree
  | EvRead n sp :: _ => RBusy n sp
  | EvReadEnd r :: l => match reading l with RBusy n sp => REnded n sp r | p => p end
  | EvReadDone _ _ _ :: _ | EvReadVoid :: _ => RFree
  | _ :: l => reading l
  end.
(** The writing direction; [total]: None for a connect. *)
Inductive wphase := WFree | WBusy (n : nat) (total : option nat) | WEnded (n : nat) (total : option nat) (r : wres).
Fixpoint writing (l : list ev) : wphase :=
  match l with
  | [] => WFree
  | EvWrite n t :: _ => WBusy n (Some t)
  | EvConnect n :: _ => WBusy n None
  | EvWriteEnd r :: l => match writing l with WBusy n t => WEnded n t r | p => p end
  | EvWriteDone _ _ _ :: _ | EvConnectDone _ _ :: _ | EvWriteVoid :: _ => WFree
  | _ :: l => writing l
  end.
Fixpoint closed (l : list ev) : bool := match l with [] => false | EvClose :: _ => true | _ :: l => closed l end.
Fixpoint hooked (l : list ev) : bool := match l with [] => false | EvHook :: _ => true | _ :: l => hooked l end.
(** A connect was started and did not succeed (yet). *)
Fixpoint unconnected (l : list ev) : bool :=
  match l with
  | [] => false
  | EvConnect _ :: _ => true
  | EvConnectDone _ err :: _ => negb (err =? SUCCESS)%Z
  | _ :: l => unconnected l
  end.
Definition number (e : ev) : option nat :=
  match e with EvRead n _ | EvWrite n _ | EvConnect n | EvReadDone n _ _ | EvWriteDone n _ _ | EvConnectDone n _ => Some n | _ => None end.
Definition fresh (n : nat) (l : list ev) : Prop := Forall (fun e => forall m, number e = Some m -> m < n) l.

(** What the handler of a read is told. *)
Definition read_result (r : rres) : Z * list N := match r with RData bs => (SUCCESS, bs) | RFin => (CIO_EOF, []) | RErr e => ((- e)%Z, []) end.
Definition write_result (r : wres) : Z * nat := match r with WOk c => (SUCCESS, c) | WErr e => ((- e)%Z, 0) end.
Definition aborted_r (r : rres) : bool := match r with RErr e => (e =? WSA_OPERATION_ABORTED)%Z | _ => false end.
Definition aborted_w (r : wres) : bool := match r with WErr e => (e =? WSA_OPERATION_ABORTED)%Z | _ => false end.

(** When an event may happen, given the events before it. *)
Definition allowed (e : ev) (r : list ev) : Prop :=
  hooked r = false /\
  match e with
  | EvRead n _ => closed r = false /\ reading r = RFree /\ fresh n r
  | EvWrite n _ => closed r = false /\ writing r = WFree /\ fresh n r
  | EvConnect n => closed r = false /\ writing r = WFree /\ fresh n r
  | EvRefused res => (res < 0)%Z
  | EvReadEnd x => (exists n sp, reading r = RBusy n sp) /\ closed r = aborted_r x
  | EvWriteEnd x => (exists n t, writing r = WBusy n t) /\ closed r = aborted_w x
  | EvReadDone n err data => closed r = false /\ exists sp x, reading r = REnded n sp x /\ (err, data) = read_result x
  | EvWriteDone n err count => closed r = false /\ exists t x, writing r = WEnded n (Some t) x /\ (err, count) = write_result x
  | EvConnectDone n err => closed r = false /\ exists x, writing r = WEnded n None x /\ (err = SUCCESS -> exists c, x = WOk c) /\ (forall e, x = WErr e -> err = (- e)%Z)
  | EvReadVoid => closed r = true /\ exists n sp x, reading r = REnded n sp x /\ aborted_r x = true
  | EvWriteVoid => closed r = true /\ exists n t x, writing r = WEnded n t x /\ aborted_w x = true
  | EvClose => closed r = false
  | EvHook => closed r = true /\ reading r = RFree /\ writing r = WFree
  end.
Fixpoint lawful (l : list ev) : Prop := match l with [] => True | e :: r => allowed e r /\ lawful r end.

(** The uses for which the code keeps its promise.  Application: at most one read and one write at a time, reads into buffers with
    space, no write on a socket that failed to connect, nothing after close; it does not close while a connect is pending nor while a completion is in the
    queue.  Kernel: ConnectEx does not succeed at once, and operations that are pending at the close end as aborted. *)
Definition careful (c : conf) (x : act) : Prop :=
  let '(s, k) := c in
  let l := tr s in
  match x with
  | XRead sp _ => closed l = false /\ reading l = RFree /\ 0 < sp
  | XWrite _ _ => closed l = false /\ writing l = WFree /\ unconnected l = false
  | XConnect how => closed l = false /\ writing l = WFree /\ how <> CNow
  | XClose => closed l = false /\ match reading l with REnded _ _ _ => False | _ => True end /\ match writing l with WEnded _ _ _ | WBusy _ None => False | _ => True end
  | XReadEnd r => closed l = true -> aborted_r r = true
  | XWriteEnd r => closed l = true -> aborted_w r = true
  | _ => True
  end.
