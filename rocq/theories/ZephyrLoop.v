(** lib/src/platform/zephyr/eventloop.c: the event loop, its bounded message queue, interrupts and other threads that put events into it, and any number of
    threads that call cio_eventloop_cancel.  Puts are numbered.  A thread for which there is no room waits (K_FOREVER); when that is the thread of the
    loop itself, nobody will ever make room.
    Not modelled: k_msgq_purge makes waiting threads give up (they put nothing), what the callbacks do besides the calls below, use of the memory of a notifier that was freed. *)
From Verif Require Import Base.

Inductive msg := MEv (n : nat) (id : nat) | MStop.
(** [Out]: cio_eventloop_run is not running, application code of the loop's thread; [Get]: in k_msgq_get, eventloop.c 53; [Call]: in a callback, 56;
    [Cancelling b]: the loop's thread is between 68 and 69, b: from a callback; [Stuck]: the loop's thread waits for room in its own queue. *)
Inductive pc := Out | Get | Call | Cancelling (b : bool) | Stuck.
Inductive ev :=
| EvPut (n id : nat)    (* cio_zephyr_eventloop_add_event has put the event of notifier id into the queue *)
| EvInit (id : nat)     (* cio_zephyr_ev_init *)
| EvRemove (id : nat)   (* cio_zephyr_eventloop_remove_event *)
| EvRun | EvReturn
| EvCall (n id : nat)   (* the callback of notifier id is called because of put n *)
| EvSkip (n id : nat)   (* put n is dropped *)
| EvDone                (* the callback returns *)
| EvPurge               (* a thread has begun cio_eventloop_cancel: the queue is empty *)
| EvStop.               (* ... and ends it *)

(** [half]: other threads between lines 68 and 69. *)
Record st := St { where_ : pc; q : list msg; removed : nat -> bool; half : nat; nput : nat; tr : list ev }.
(** eventloop.c 38-43, cio_eventloop_init. *)
Definition start : st := St Out [] (fun _ => false) 0 0 [].

Section S.
Variable SIZE : nat.   (* CIO_ZEPHYR_EVENTLOOP_MSG_QUEUE_SIZE *)

Inductive act :=
| XPut (id : nat)       (* eventloop.c 72-76, from an interrupt or another thread *)
| XPutSelf (id : nat)   (* ... from the thread of the loop *)
| XInit (id : nat) | XRemove (id : nat)   (* 83-86, 78-81 *)
| XRun
| XGet                  (* 52-60 *)
| XDone
| XPurge                (* 68, another thread *)
| XStop                 (* 69, another thread *)
| XPurgeSelf | XStopSelf.

Definition put (s : st) (m : msg) (w : pc) (h : nat) (n : nat) (e : ev) : st := St w (q s ++ [m]) (removed s) h n (e :: tr s).
Definition full (s : st) : bool := Nat.leb SIZE (length (q s)).
Definition upd (f : nat -> bool) (i : nat) (b : bool) : nat -> bool := fun j => if Nat.eqb j i then b else f j.
Definition step (s : st) (x : act) : st :=
  match x with
  | XPut id => put s (MEv (nput s) id) (where_ s) (half s) (S (nput s)) (EvPut (nput s) id)
  | XPutSelf id => if full s then St Stuck (q s) (removed s) (half s) (nput s) (tr s) else put s (MEv (nput s) id) (where_ s) (half s) (S (nput s)) (EvPut (nput s) id)
  | XInit id => St (where_ s) (q s) (upd (removed s) id false) (half s) (nput s) (EvInit id :: tr s)
  | XRemove id => St (where_ s) (q s) (upd (removed s) id true) (half s) (nput s) (EvRemove id :: tr s)
  | XRun => St Get (q s) (removed s) (half s) (nput s) (EvRun :: tr s)
  | XGet => match q s with
    | [] => s
    | MStop :: r => St Out r (removed s) (half s) (nput s) (EvReturn :: tr s)
    | MEv n id :: r => if removed s id then St Get r (removed s) (half s) (nput s) (EvSkip n id :: tr s)
                       else St Call r (removed s) (half s) (nput s) (EvCall n id :: tr s)
    end
  | XDone => St Get (q s) (removed s) (half s) (nput s) (EvDone :: tr s)
  | XPurge => St (where_ s) [] (removed s) (S (half s)) (nput s) (EvPurge :: tr s)
  | XStop => put s MStop (where_ s) (pred (half s)) (nput s) EvStop
  | XPurgeSelf => St (Cancelling (match where_ s with Call => true | _ => false end)) [] (removed s) (half s) (nput s) (EvPurge :: tr s)
  | XStopSelf => if full s then St Stuck (q s) (removed s) (half s) (nput s) (tr s)
                 else put s MStop (match where_ s with Cancelling true => Call | _ => Out end) (half s) (nput s) EvStop
  end.
Definition app (s : st) : Prop := where_ s = Out \/ where_ s = Call.
Definition enabled (s : st) (x : act) : Prop :=
  match x with
  | XPut _ => full s = false
  | XPutSelf _ | XInit _ | XRemove _ | XPurgeSelf => app s
  | XRun => where_ s = Out
  | XGet => where_ s = Get /\ q s <> []
  | XDone => where_ s = Call
  | XPurge => True
  | XStop => (0 < half s)%nat /\ full s = false
  | XStopSelf => exists b, where_ s = Cancelling b
  end.

Inductive later (s : st) : st -> Prop :=
| later_refl : later s s
| later_step s1 x : later s s1 -> enabled s1 x -> later s (step s1 x).
Definition reach (s : st) : Prop := later start s.
End S.
