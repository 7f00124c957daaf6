(** A websocket (lib/src/websocket.c) that reads through a buffered stream (lib/src/buffered_stream.c): the two halves put together.
    [WsModel] leaves open when a stored read request fires and which bytes it shows; here that is decided by the loop of the buffered stream over a
    read buffer of bytes, filled by a transport that delivers any bytes in any pieces.  The buffer operations are those of [BufReadModel]. *)
From Verif Require Import Base WsModel.
From Verif Require BufReadModel.
Import BufReadModel(rbuf, rb_init, rb_unread, rb_space, rb_view, rb_consume, rb_compact, rb_store, fetch).
Open Scope N_scope.

(** Both halves.  [lerr]: last_error of the stream; [loop]: run_read was entered from the event loop and has not returned (entered from a read function it is
    the operation [OFire] on the stack); [leave]: run_read returns when the handler returns, because fill_buffer called it. *)
Record sys := Sys {
  wc : conf;
  rb : rbuf;
  del : list N;        (* all bytes the transport has delivered *)
  wait : bool;         (* a read_some is in progress *)
  lerr : Z;
  loop : bool;
  leave : bool;
  failed : list Z      (* errors the transport has reported *) }.

(** cio_buffered_stream_init 267-279 and cio_websocket_init *)
Definition sys_init (g : junk) (m : list N) : sys := Sys (ws_init g, []) (rb_init m) [] false CIO_SUCCESS false false [].

Section Code.
Variable C : cfg.
Variable base : nat.   (* address of the read buffer's memory *)

(** run_read is running and at the head of its loop. *)
Definition in_loop (p : sys) : Prop :=
  match snd (wc p) with [] => loop p = true | OFire :: _ => True | _ => False end.
Definition in_loopb (p : sys) : bool :=
  match snd (wc p) with [] => loop p | OFire :: _ => true | _ => false end.

(** One step of the websocket.  What it takes from the read buffer (cio_read_buffer_consume) are the bytes by which its input grows; a read function
    resets last_error (buffered_stream.c 294, 312, 329). *)
Definition ws_step (p : sys) (x : act) : outcome sys :=
  obind (step C (wc p) x) (fun c' =>
  obind (rb_consume (rb p) (length (inp (fst c')) - length (inp (fst (wc p))))) (fun b =>
  Ret (Sys c' b (del p) (wait p) (match rd (fst c') with Some _ => CIO_SUCCESS | None => lerr p end) (loop p) (leave p) (failed p)))).

(** internal_read_max 114-129, internal_read_at_least 151-165: can the request be answered with [n] unread bytes? *)
Definition satisfied (rq : rreq) (n : nat) : bool :=
  if rq_most rq then Nat.ltb 0 n else N.leb (rq_n rq) (N.of_nat n).

Definition set_leave (p : sys) : sys := Sys (wc p) (rb p) (del p) (wait p) (lerr p) (loop p) true (failed p).
Definition set_lerr (p : sys) (e : Z) : sys := Sys (wc p) (rb p) (del p) (wait p) e (loop p) (leave p) (failed p).
Definition set_rb (p : sys) (b : rbuf) : sys := Sys (wc p) b (del p) (wait p) (lerr p) (loop p) (leave p) (failed p).
Definition set_failed (p : sys) (e : Z) : sys := Sys (wc p) (rb p) (del p) (wait p) (lerr p) (loop p) (leave p) (e :: failed p).
Definition set_wait (p : sys) (w : bool) : sys := Sys (wc p) (rb p) (del p) w (lerr p) (loop p) (leave p) (failed p).

(** run_read returns. *)
Definition exit (p : sys) (ch : choice) : sys * option act :=
  (Sys (wc p) (rb p) (del p) (wait p) (lerr p) false false (failed p), match snd (wc p) with [] => None | _ => Some (XOp ch) end).

(** fill_buffer's compaction 80-83 *)
Definition room (b : rbuf) : rbuf := if Nat.eqb (rb_space b) 0 then rb_compact b else b.

(** One round of run_read's loop, 92-105 with 55-90: what happens to the stream, and the step of the websocket that follows (the handler is called, or
    run_read returns to its caller).  [rs] is what stream->read_some returns.  After the close hook, in which the application closes the stream, the loop ends
    (BS_CLOSED, 60-65). *)
Definition round (p : sys) (ch : choice) (rs : Z) : sys * option act :=
  if (leave p || hooked (fst (wc p)))%bool then exit p ch
  else match rd (fst (wc p)) with
  | None => exit p ch
  | Some rq =>
      if negb (Z.eqb (lerr p) CIO_SUCCESS) then (p, Some (XFire (FErr (lerr p)) ch))
      else if satisfied rq (rb_unread (rb p)) then (p, Some (XFire (FData (base + fetch (rb p)) (rb_view (rb p))) ch))
      else if (Nat.eqb (rb_space (rb p)) 0 && Nat.eqb (fetch (rb p)) 0)%bool
      then (set_leave (set_lerr p CIO_MESSAGE_TOO_LONG), Some (XFire (FErr CIO_MESSAGE_TOO_LONG) ch))
      else
        let p := set_rb p (room (rb p)) in
        if Z.eqb rs CIO_SUCCESS then exit (set_wait p true) ch
        else (set_leave (set_failed p rs), Some (XFire (FErr rs) ch))
  end.

Inductive sact :=
| SWs (x : act)                        (* pending operations, the application, writes, the timer *)
| SRound (ch : choice) (rs : Z)        (* one round of run_read's loop *)
| SDeliver (bs : list N)               (* the transport completes the read with these bytes *)
| SFail (err : Z).                     (* ... or with an error *)

(** The step of the websocket that is part of a step of both. *)
Definition ws_act (p : sys) (x : sact) : option act :=
  match x with SWs y => Some y | SRound ch rs => snd (round p ch rs) | _ => None end.

(** handle_read, buffered_stream.c 45-53 *)
Definition sstep (p : sys) (x : sact) : outcome sys :=
  match x with
  | SWs y => ws_step p y
  | SRound ch rs => match round p ch rs with (p', Some y) => ws_step p' y | (p', None) => Ret p' end
  | SDeliver bs => Ret (Sys (wc p) (rb_store (rb p) bs) (del p ++ bs) false CIO_SUCCESS true (leave p) (failed p))
  | SFail err => Ret (Sys (wc p) (rb p) (del p) false err true (leave p) (err :: failed p))
  end.

(** In the event loop, nothing running. *)
Definition at_rest (p : sys) : Prop := snd (wc p) = [] /\ loop p = false.

(** When it can happen: the loop runs before anything else does; the transport completes a read that is in progress, unless the stream is closed, with
    at least one byte and no more than there is room for, or with an error. *)
Definition senabled (p : sys) (x : sact) : Prop :=
  match x with
  | SWs y => ~ in_loop p /\ enabled (wc p) y /\ match y with XFire _ _ => False | _ => True end
  | SRound ch _ => in_loop p /\ choice_ok ch
  | SDeliver bs => at_rest p /\ wait p = true /\ hooked (fst (wc p)) = false /\ bs <> [] /\ bytes_ok bs /\ (length bs <= rb_space (rb p))%nat
  | SFail err => at_rest p /\ wait p = true /\ hooked (fst (wc p)) = false /\ err <> CIO_SUCCESS
  end.

(** Executions with a read buffer of [rbsize C] bytes; [P] as in [WsModel.reach]. *)
Inductive sreach (P : conf -> act -> Prop) : sys -> Prop :=
| sreach_init g m : length (jk_rmask g) = 4%nat -> length (jk_cmask g) = 4%nat -> bytes_ok (jk_rmask g) -> bytes_ok (jk_cmask g) ->
    N.of_nat (length m) = rbsize C -> (0 < length m)%nat -> sreach P (sys_init g m)
| sreach_step p x p' : sreach P p -> senabled p x -> (forall y, ws_act p x = Some y -> P (wc p) y) -> sstep p x = Ret p' -> sreach P p'.
End Code.
