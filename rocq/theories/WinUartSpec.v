(** What a user of a serial port's stream expects, in terms of the events only (newest first). *)
From Verif Require Import Base WinUart.

(** The reading direction: nothing, a read in the kernel, a read that ended whose handler was not called yet. *)
Inductive rphase := RFree | RBusy (n space : nat) | REnded (n space : nat) (r : rres).
Fixpoint reading (l : list ev) : rphase :=
  match l with
  | [] => RFree
  | EvRead n sp :: _ => RBusy n sp
  | EvReadEnd r :: l => match reading l with RBusy n sp => REnded n sp r | p => p end
  | EvReadDone _ _ _ :: _ | EvReadVoid :: _ => RFree
  | _ :: l => reading l
  end.
Inductive wphase := WFree | WBusy (n : nat) (data : list N) | WEnded (n : nat) (data : list N) (r : wres).
Fixpoint writing (l : list ev) : wphase :=
  match l with
  | [] => WFree
  | EvWrite n d :: _ => WBusy n d
  | EvWriteEnd r :: l => match writing l with WBusy n d => WEnded n d r | p => p end
  | EvWriteDone _ _ _ :: _ | EvWriteVoid :: _ => WFree
  | _ :: l => writing l
  end.
Fixpoint closed (l : list ev) : bool := match l with [] => false | EvClose :: _ => true | _ :: l => closed l end.
Fixpoint hooked (l : list ev) : bool := match l with [] => false | EvHook :: _ => true | _ :: l => hooked l end.
Definition number (e : ev) : option nat :=
  match e with EvRead n _ | EvWrite n _ | EvReadDone n _ _ | EvWriteDone n _ _ => Some n | _ => None end.
Definition fresh (n : nat) (l : list ev) : Prop := Forall (fun e => forall m, number e = Some m -> m < n) l.

(** What the handlers are told: errors are negative codes. *)
Definition read_result (r : rres) : option (Z * list N) := match r with RData bs => Some (SUCCESS, bs) | RErr e => Some ((- e)%Z, []) | RTimeout => None end.
Definition write_result (r : wres) : Z * nat := match r with WOk sent => (SUCCESS, length sent) | WErr e => ((- e)%Z, 0) end.
Definition aborted_r (r : rres) : bool := match r with RErr e => (e =? ERROR_OPERATION_ABORTED)%Z | _ => false end.
Definition aborted_w (r : wres) : bool := match r with WErr e => (e =? ERROR_OPERATION_ABORTED)%Z | _ => false end.
Definition prefix (p l : list N) : Prop := exists q, l = p ++ q.

(** When an event may happen, given the events before it. *)
Definition allowed (e : ev) (r : list ev) : Prop :=
  hooked r = false /\
  match e with
  | EvRead n _ => closed r = false /\ reading r = RFree /\ fresh n r
  | EvWrite n _ => closed r = false /\ writing r = WFree /\ fresh n r
  | EvRefused res => (res < 0)%Z
  | EvReadEnd x => (exists n sp, reading r = RBusy n sp /\ forall bs, x = RData bs -> length bs <= sp) /\ closed r = aborted_r x
  | EvWriteEnd x => (exists n d, writing r = WBusy n d /\ forall sent, x = WOk sent -> prefix sent d) /\ closed r = aborted_w x
  | EvReadDone n err data => closed r = false /\ exists sp x, reading r = REnded n sp x /\ Some (err, data) = read_result x
  | EvWriteDone n err count => closed r = false /\ exists d x, writing r = WEnded n d x /\ (err, count) = write_result x
  | EvReadVoid => closed r = true /\ exists n sp x, reading r = REnded n sp x /\ aborted_r x = true
  | EvWriteVoid => closed r = true /\ exists n d x, writing r = WEnded n d x /\ aborted_w x = true
  | EvClose => closed r = false
  | EvHook => closed r = true /\ reading r = RFree /\ writing r = WFree
  end.
Fixpoint lawful (l : list ev) : Prop := match l with [] => True | e :: r => allowed e r /\ lawful r end.

(** The uses for which the code keeps its promise.  Application: at most one read and one write at a time, reads into buffers with
    space, nothing after close; it does not close while a completion is in the queue.  Kernel: no read times out, writes do not
    fail, the driver has copied the bytes before WriteFile returns, operations that are pending at the close end as aborted. *)
Definition careful (c : conf) (x : act) : Prop :=
  let '(s, k) := c in
  let l := tr s in
  match x with
  | XRead sp _ => closed l = false /\ reading l = RFree /\ 0 < sp
  | XWrite _ _ => closed l = false /\ writing l = WFree
  | XClose => closed l = false /\ match reading l with REnded _ _ _ => False | _ => True end /\ match writing l with WEnded _ _ _ => False | _ => True end
  | XReadEnd r => r <> RTimeout /\ (closed l = true -> aborted_r r = true)
  | XWriteEnd r => (closed l = true -> aborted_w r = true) /\
      match r with WOk sent => prefix sent (wbuf s) | WErr e => e = ERROR_OPERATION_ABORTED end
  | _ => True
  end.
