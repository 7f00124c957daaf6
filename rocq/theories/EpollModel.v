(** Model of lib/src/platform/linux/epoll.c: the event loop with an arbitrary
    kernel (any batch of events epoll_wait may return) and an arbitrary
    application (callbacks may add, change, remove and free notifiers).

    Notifiers (struct cio_event_notifier, eventloop_impl.h 60-84) are named by
    numbers, standing for their addresses; number 0 is loop->stop_ev.
    Not modelled: failure of cio_eventloop_init, the file descriptors, a NULL
    read_callback/write_callback (a notifier registers only for events it has a
    callback for), cio_eventloop_run being called inside a callback. *)
From Verif Require Import Base.
Local Open Scope N_scope.

(** sys/epoll.h *)
Definition EPOLLIN : N := 1.
Definition EPOLLOUT : N := 4.
Definition EPOLLERR : N := 8.
Definition EPOLLHUP : N := 16.
(** eventloop_impl.h 50 *)
Definition CONFIG_MAX_EPOLL_EVENTS : nat := 100.
Definition STOP : nat := 0.

(** Observable events. *)
Inductive eev :=
| EvAdd (n : nat)                       (* cio_linux_eventloop_add succeeded *)
| EvReg (n : nat) (flag : N)            (* register_read / register_write *)
| EvUnreg (n : nat) (flag : N)          (* unregister_read / unregister_write called by the application *)
| EvRemove (n : nat)                    (* cio_linux_eventloop_remove *)
| EvFree (n : nat)                      (* the application frees the memory of the notifier *)
| EvBatch (l : list (nat * N))          (* epoll_wait returned these events, in this order *)
| EvRead (n : nat)                      (* the read callback of n is called (always with CIO_EPOLL_SUCCESS) *)
| EvWrite (n : nat) (err : bool)        (* the write callback of n is called; err: CIO_EPOLL_ERROR *)
| EvReturn                              (* the callback returned *)
| EvStop                                (* cio_eventloop_run returns CIO_SUCCESS *)
| EvFail.                               (* cio_eventloop_run returns an error from epoll_wait *)

(** Where the program is.  [POutside]: application code outside
    cio_eventloop_run; [PWait]: in epoll_wait; [PNext]: at the head of the for
    loop, 192; [PRead]: in a read callback, 202; [PHandle]: at 205; [PWrite]:
    in a write callback, 171. *)
Inductive pc := POutside | PWait | PNext | PRead (n : nat) (ev : N) | PHandle (n : nat) (ev : N) | PWrite (n : nat).

(** struct cio_eventloop, eventloop_impl.h 86-96.  [evs] are the first
    num_events elements of epoll_events (later elements are never read);
    [mem n] is registered_events of notifier n if its memory is usable. *)
Record st := mkS { where_ : pc; evs : list (nat * N); counter : nat; current : option nat; mem : nat -> option N; tr : list eev }.
Definition at_pc p s := mkS p (evs s) (counter s) (current s) (mem s) (tr s).
Definition set_evs l s := mkS (where_ s) l (counter s) (current s) (mem s) (tr s).
Definition set_counter c s := mkS (where_ s) (evs s) c (current s) (mem s) (tr s).
Definition set_current c s := mkS (where_ s) (evs s) (counter s) c (mem s) (tr s).
Definition upd (m : nat -> option N) n v : nat -> option N := fun x => if Nat.eqb x n then v else m x.
Definition set_mem n v s := mkS (where_ s) (evs s) (counter s) (current s) (upd (mem s) n v) (tr s).
Definition log e s := mkS (where_ s) (evs s) (counter s) (current s) (mem s) (tr s ++ [e]).

(** epoll.c 43-52, erase_pending_event: the loop over i from event_counter+1, the
    memmove and the decrement of num_events. [fuel] is the number of elements
    left to look at. *)
Fixpoint erase_from (i : nat) (fuel : nat) (l : list (nat * N)) (n : nat) : list (nat * N) :=
  match fuel with
  | O => l
  | S f => match nth_error l i with
    | None => l
    | Some (m, _) => if Nat.eqb m n then firstn i l ++ skipn (i + 1) l else erase_from (i + 1) f l n
    end
  end.
Definition erase_pending_event (s : st) (n : nat) : st :=
  set_evs (erase_from (counter s + 1) (length (evs s)) (evs s) n) s.

(** epoll.c 129-151; the result of epoll_ctl is not visible in the loop's data. *)
Definition register (s : st) (n : nat) (flag : N) : outcome st :=
  match mem s n with Some r => Ret (set_mem n (Some (N.lor r flag)) s) | None => UB end.
Definition unregister (s : st) (n : nat) (flag : N) : outcome st :=
  match mem s n with Some r => Ret (set_mem n (Some (N.ldiff r flag)) s) | None => UB end.

(** epoll.c 115-127, cio_linux_eventloop_add. *)
Definition add (s : st) (n : nat) : st := log (EvAdd n) (set_mem n (Some 0) s).

(** epoll.c 153-160, cio_linux_eventloop_remove (reads evn->fd). *)
Definition remove (s : st) (n : nat) : outcome st :=
  match mem s n with
  | None => UB
  | Some _ =>
    let s := erase_pending_event (log (EvRemove n) s) n in
    Ret (match current s with Some m => if Nat.eqb m n then set_current None s else s | None => s end)
  end.

(** epoll.c 162-173, handle_removed_ev, then the next iteration. *)
Definition handle_removed_ev (s : st) (n : nat) (ev : N) : outcome st :=
  match current s with
  | None => Ret (at_pc PNext (set_counter (counter s + 1) s))
  | Some _ => match mem s n with
    | None => UB
    | Some r =>
      if N.eqb (N.land (N.land ev EPOLLOUT) r) 0 then Ret (at_pc PNext (set_counter (counter s + 1) s))
      else
        let err := (negb (N.eqb (N.land ev EPOLLERR) 0) || negb (N.eqb (N.land ev EPOLLHUP) 0))%bool in
        match unregister s n EPOLLOUT with
        | UB => UB
        | Ret s => Ret (at_pc (PWrite n) (log (EvWrite n err) s))
        end
    end
  end.

(** epoll.c 192-204: the head of the for loop. *)
Definition next (s : st) : outcome st :=
  match nth_error (evs s) (counter s) with
  | None => Ret (at_pc PWait s)
  | Some (n, ev) =>
    if Nat.eqb n STOP then Ret (at_pc POutside (log EvStop s))
    else match mem s n with
    | None => UB
    | Some r =>
      let s := set_current (Some n) s in
      if N.eqb (N.land (N.land ev EPOLLIN) r) 0 then Ret (at_pc (PHandle n ev) s)
      else Ret (at_pc (PRead n ev) (log (EvRead n) s))
    end
  end.

Inductive act :=
| XRun                                (* the application calls cio_eventloop_run *)
| XWait (l : list (nat * N))          (* epoll_wait returns events *)
| XWaitErr                            (* epoll_wait fails, errno <> EINTR *)
| XNext                               (* 192-204 *)
| XHandle                             (* 205 *)
| XReturn                             (* the callback returns *)
| XAdd (n : nat) | XReg (n : nat) (flag : N) | XUnreg (n : nat) (flag : N) | XRemove (n : nat) | XFree (n : nat).

Definition step (s : st) (x : act) : outcome st :=
  match x with
  | XRun => Ret (at_pc PWait s)
  | XWait l => Ret (at_pc PNext (log (EvBatch l) (set_counter 0 (set_evs l s))))
  | XWaitErr => Ret (at_pc POutside (log EvFail s))
  | XNext => next s
  | XHandle => match where_ s with PHandle n ev => handle_removed_ev s n ev | _ => Ret s end
  | XReturn => match where_ s with
    | PRead n ev => Ret (at_pc (PHandle n ev) (log EvReturn s))
    | PWrite n => Ret (at_pc PNext (log EvReturn (set_counter (counter s + 1) s)))
    | _ => Ret s
    end
  | XAdd n => Ret (add s n)
  | XReg n f => match register s n f with Ret s => Ret (log (EvReg n f) s) | UB => UB end
  | XUnreg n f => match unregister s n f with Ret s => Ret (log (EvUnreg n f) s) | UB => UB end
  | XRemove n => remove s n
  | XFree n => Ret (log (EvFree n) (set_mem n None s))
  end.

(** epoll.c 67-105, cio_eventloop_init in the case of success. *)
Definition epoll_init : st :=
  mkS POutside [] 0 None (upd (fun _ => None) STOP (Some EPOLLIN)) [].
