(** lib/src/platform/windows/iocp.c: cio_eventloop_run and cio_eventloop_cancel, with a kernel that queues completions at any time and any number of
    threads that call cio_eventloop_cancel.  Completions are numbered in the order in which they reach the completion port.
    Not modelled: the data race on go_ahead (a plain bool), what the callbacks do besides cancelling, a completion key equal to SIZE_MAX. *)
From Verif Require Import Base.

Inductive packet := PDone (id : nat) | PStop.
(** [Out]: cio_eventloop_run is not running; [Check]: at iocp.c 87; [Wait]: in GetQueuedCompletionStatus, 91; [Call]: in a callback, 99 or 109. *)
Inductive pc := Out | Check | Wait | Call (id : nat).
Inductive ev :=
| EvArrive (id : nat)   (* the kernel has completed an operation of a notifier *)
| EvRun                 (* cio_eventloop_run is called *)
| EvReturn              (* ... and returns CIO_SUCCESS *)
| EvCall (id : nat)     (* the callback for this completion is called *)
| EvDone                (* ... and returns *)
| EvCancel              (* a thread has begun cio_eventloop_cancel: go_ahead is false *)
| EvPosted (ok : bool). (* ... and ends it; ok: PostQueuedCompletionStatus worked *)

(** [half]: calls of cio_eventloop_cancel between lines 117 and 118. *)
Record st := St { where_ : pc; go : bool; q : list packet; half : nat; narr : nat; tr : list ev }.
(** iocp.c 45-68, cio_eventloop_init in the case of success. *)
Definition start : st := St Out true [] 0 0 [].

Inductive act :=
| XArrive          (* a completion packet is queued by the kernel *)
| XRun
| XCheck           (* iocp.c 87: the loop condition *)
| XGet             (* 91: GetQueuedCompletionStatus returns a packet; a failed operation (97-101) leads to the callback like any other *)
| XBroken          (* 91: it fails without a packet, 94-96 *)
| XDone            (* the callback returns *)
| XCancel          (* 117 *)
| XPost (ok : bool)  (* 118 *).

Definition step (s : st) (x : act) : st :=
  match x with
  | XArrive => St (where_ s) (go s) (q s ++ [PDone (narr s)]) (half s) (S (narr s)) (EvArrive (narr s) :: tr s)
  | XRun => St Check (go s) (q s) (half s) (narr s) (EvRun :: tr s)
  | XCheck => if go s then St Wait (go s) (q s) (half s) (narr s) (tr s) else St Out (go s) (q s) (half s) (narr s) (EvReturn :: tr s)
  | XGet => match q s with
    | [] => s
    | PStop :: r => St Out (go s) r (half s) (narr s) (EvReturn :: tr s)
    | PDone id :: r => St (Call id) (go s) r (half s) (narr s) (EvCall id :: tr s)
    end
  | XBroken => St Check (go s) (q s) (half s) (narr s) (tr s)
  | XDone => St Check (go s) (q s) (half s) (narr s) (EvDone :: tr s)
  | XCancel => St (where_ s) false (q s) (S (half s)) (narr s) (EvCancel :: tr s)
  | XPost ok => St (where_ s) (go s) (if ok then q s ++ [PStop] else q s) (pred (half s)) (narr s) (EvPosted ok :: tr s)
  end.

Definition enabled (s : st) (x : act) : Prop :=
  match x with
  | XArrive | XCancel => True
  | XRun => where_ s = Out
  | XCheck => where_ s = Check
  | XGet => where_ s = Wait /\ q s <> []
  | XBroken => where_ s = Wait
  | XDone => exists id, where_ s = Call id
  | XPost _ => (0 < half s)%nat
  end.

Inductive later (s : st) : st -> Prop :=
| later_refl : later s s
| later_step s1 x : later s s1 -> enabled s1 x -> later s (step s1 x).
Definition reach (s : st) : Prop := later start s.
