(** Model of the reading half of lib/src/buffered_stream.c and of
    lib/include/cio/read_buffer.h.

    The library code is single threaded and event driven.  The user's handlers
    are an arbitrary function from the history to a list of API calls, the
    transport below is an arbitrary function (immediate result of read_some)
    plus arbitrary later completion events.  run_read's loop is executed one
    iteration per [XTick], so that handlers that keep the loop busy for ever
    are covered too. *)
From Verif Require Import Base MemmemModel.
Open Scope nat_scope.

(** error codes, lib/include/cio/error_code.h *)
Definition SUCCESS : Z := 0%Z.
Definition MESSAGE_TOO_LONG : Z := (-90)%Z.

(** struct cio_read_buffer, read_buffer.h 50-58: [data] is address 0 of [mem],
    [end] its length, [add_ptr]/[fetch_ptr] offsets. *)
Record rbuf := RBuf { mem : list N; fetch : nat; add : nat }.

(** cio_read_buffer_init 87-99 (non-NULL, size > 0). *)
Definition rb_init (m : list N) : rbuf := RBuf m 0 0.
(** cio_read_buffer_unread_bytes 65-68. *)
Definition rb_unread (b : rbuf) : nat := add b - fetch b.
(** cio_read_buffer_space_available 75-78. *)
Definition rb_space (b : rbuf) : nat := length (mem b) - add b.
(** cio_read_buffer_size 117-120. *)
Definition rb_size (b : rbuf) : nat := length (mem b).
(** The bytes between fetch_ptr and add_ptr, i.e. what a handler can see from
    cio_read_buffer_get_read_ptr (107-110) on. *)
Definition rb_view (b : rbuf) : list N := firstn (add b - fetch b) (skipn (fetch b) (mem b)).
(** cio_read_buffer_consume 129-132; consuming more than is unread moves
    fetch_ptr past add_ptr, which the rest of the code does not survive: UB. *)
Definition rb_consume (b : rbuf) (n : nat) : outcome rbuf :=
  if Nat.leb (fetch b + n) (add b) then Ret (RBuf (mem b) (fetch b + n) (add b)) else UB.

(** read_job together with read_info: internal_read_at_least / _until / _max. *)
Inductive rjob := JAtLeast (n : nat) | JUntil (delim : list N) | JAtMost (n : nat).

(** The observable history, newest event first.  Every accepted request gets a
    number that stands for the identity of its handler and context. *)
Inductive ev :=
| EvRequest (id : nat) (j : rjob)            (* a read function returned success *)
| EvRefused (j : rjob)                       (* a read function returned MESSAGE_TOO_LONG *)
| EvCall (id : nat) (err : Z) (n : nat) (view : list N)  (* a handler is called *)
| EvConsume (n : nat)
| EvReadSome (err : Z)                       (* stream->read_some returned err *)
| EvDeliver (bs : list N)                    (* the transport stored bs and completed with success *)
| EvFail (err : Z)                           (* the transport completed with an error *)
| EvCloseCall                                (* the user calls cio_buffered_stream_close *)
| EvClose.                                   (* stream->close called *)

Inductive uact := UConsume (n : nat) | URead (j : rjob) | UClose.

(** Where the thread is: outside of the stream, or at the head of run_read's loop. *)
Inductive ctl := Idle | Loop.

(** struct cio_buffered_stream (reading part), buffered_stream.h. *)
Record st := St {
  buf : rbuf;
  job : option rjob;
  jobid : nat;
  last_error : Z;
  cbrun : nat;
  shall_close : bool;
  waiting : bool;      (* the transport has an unfinished read_some *)
  ct : ctl;
  tr : list ev;
  nreq : nat           (* number of accepted requests so far *)
}.

(** cio_buffered_stream_init 267-279 on a fresh read buffer. *)
Definition bs_init (m : list N) : st :=
  St (rb_init m) None 0 SUCCESS 0 false false Idle [] 0.

Definition log (s : st) (e : ev) : st :=
  St (buf s) (job s) (jobid s) (last_error s) (cbrun s) (shall_close s) (waiting s) (ct s) (e :: tr s) (nreq s).

(** start_read 107-112. *)
Definition start_read (s : st) : st :=
  if Nat.eqb (cbrun s) 0
  then St (buf s) (job s) (jobid s) (last_error s) (cbrun s) (shall_close s) (waiting s) Loop (tr s) (nreq s)
  else s.

(** Common part of the three read functions, e.g. 291-299: store the request
    and start reading. *)
Definition set_job (s : st) (j : rjob) : st :=
  start_read (St (buf s) (Some j) (nreq s) SUCCESS (cbrun s) (shall_close s) (waiting s) (ct s)
                 (EvRequest (nreq s) j :: tr s) (S (nreq s))).

(** cio_buffered_stream_read_at_least 281-300, read_until 302-318, read_at_most
    320-335 (non-NULL arguments; one read buffer is used for all requests). *)
Definition bs_read (s : st) (j : rjob) : st :=
  match j with
  | JAtLeast n => if Nat.ltb (rb_size (buf s)) n then log s (EvRefused j) else set_job s j
  | JUntil _ | JAtMost _ => set_job s j
  end.

(** cio_buffered_stream_close 337-350. *)
Definition bs_close (s : st) : st :=
  let s := log s EvCloseCall in
  if Nat.eqb (cbrun s) 0 then log s EvClose
  else St (buf s) (job s) (jobid s) (last_error s) (cbrun s) true (waiting s) (ct s) (tr s) (nreq s).

(** One API call of the user. *)
Definition user_act (s : st) (a : uact) : outcome st :=
  match a with
  | UConsume n =>
      obind (rb_consume (buf s) n) (fun b =>
      Ret (St b (job s) (jobid s) (last_error s) (cbrun s) (shall_close s) (waiting s) (ct s)
              (EvConsume n :: tr s) (nreq s)))
  | URead j => Ret (bs_read s j)
  | UClose => Ret (bs_close s)
  end.

Fixpoint user_acts (s : st) (l : list uact) : outcome st :=
  match l with
  | [] => Ret s
  | a :: l' => obind (user_act s a) (fun s' => user_acts s' l')
  end.

Inductive bs_state := BS_OPEN | BS_CLOSED | BS_AGAIN.

Section Env.
(** What the user does in a handler, given the history up to and including the call. *)
Variable user : list ev -> list uact.
(** What stream->read_some returns, given the history. *)
Variable read_some : list ev -> Z.

(** call_handler 55-68. *)
Definition call_handler (s : st) (err : Z) (n : nat) : outcome (st * bs_state) :=
  let t := EvCall (jobid s) err n (rb_view (buf s)) :: tr s in
  let s := St (buf s) None (jobid s) (last_error s) (S (cbrun s)) (shall_close s) (waiting s) (ct s) t (nreq s) in
  obind (user_acts s (user t)) (fun s =>
  let s := St (buf s) (job s) (jobid s) (last_error s) (pred (cbrun s)) (shall_close s) (waiting s) (ct s) (tr s) (nreq s) in
  if shall_close s then Ret (log s EvClose, BS_CLOSED) else Ret (s, BS_OPEN)).

(** internal_read_max 114-129, internal_read_until 131-149, internal_read_at_least 151-165. *)
Definition run_job (s : st) (j : rjob) : outcome (st * bs_state) :=
  if negb (Z.eqb (last_error s) SUCCESS) then call_handler s (last_error s) 0
  else
    match j with
    | JAtMost n =>
        let available := rb_unread (buf s) in
        if Nat.ltb 0 available then call_handler s SUCCESS (Nat.min available n)
        else Ret (s, BS_AGAIN)
    | JUntil delim =>
        obind (cio_memmem (rb_view (buf s)) delim) (fun found =>
        match found with
        | Some off => call_handler s SUCCESS (off + length delim)
        | None => Ret (s, BS_AGAIN)
        end)
    | JAtLeast n =>
        if Nat.leb n (rb_unread (buf s)) then call_handler s SUCCESS n
        else Ret (s, BS_AGAIN)
    end.

Definition set_buf (s : st) (b : rbuf) : st :=
  St b (job s) (jobid s) (last_error s) (cbrun s) (shall_close s) (waiting s) (ct s) (tr s) (nreq s).
Definition set_error (s : st) (e : Z) : st :=
  St (buf s) (job s) (jobid s) e (cbrun s) (shall_close s) (waiting s) (ct s) (tr s) (nreq s).
Definition set_ct (s : st) (c : ctl) : st :=
  St (buf s) (job s) (jobid s) (last_error s) (cbrun s) (shall_close s) (waiting s) c (tr s) (nreq s).
Definition set_waiting (s : st) (w : bool) : st :=
  St (buf s) (job s) (jobid s) (last_error s) (cbrun s) (shall_close s) w (ct s) (tr s) (nreq s).

(** Compaction, 80-83: memmove of the unread bytes to the start. *)
Definition rb_compact (b : rbuf) : rbuf :=
  RBuf (rb_view b ++ skipn (length (rb_view b)) (mem b)) 0 (rb_unread b).

(** fill_buffer 70-90. *)
Definition fill_buffer (s : st) (j : rjob) : outcome st :=
  if (Nat.eqb (rb_space (buf s)) 0 && Nat.eqb (fetch (buf s)) 0)%bool then
    obind (run_job (set_error s MESSAGE_TOO_LONG) j) (fun r => Ret (fst r))
  else
    let s := if Nat.eqb (rb_space (buf s)) 0 then set_buf s (rb_compact (buf s)) else s in
    let err := read_some (tr s) in
    let s := log s (EvReadSome err) in
    if Z.eqb err SUCCESS then Ret (set_waiting s true)
    else obind (call_handler s err 0) (fun r => Ret (fst r)).

(** One iteration of run_read's loop, 92-105. *)
Definition tick (s : st) : outcome st :=
  match job s with
  | None => Ret (set_ct s Idle)
  | Some j =>
      obind (run_job s j) (fun r =>
      match snd r with
      | BS_AGAIN => obind (fill_buffer (fst r) j) (fun s => Ret (set_ct s Idle))
      | BS_CLOSED => Ret (set_ct (fst r) Idle)
      | BS_OPEN => Ret (fst r)
      end)
  end.

(** handle_read 45-53: completion of stream->read_some. *)
Definition handle_read (s : st) (err : Z) : st :=
  set_ct (set_waiting (set_error s err) false) Loop.

(** The transport stores [bs] at add_ptr before it completes (e.g. socket.c 76-90). *)
Definition rb_store (b : rbuf) (bs : list N) : rbuf :=
  RBuf (firstn (add b) (mem b) ++ bs ++ skipn (add b + length bs) (mem b)) (fetch b) (add b + length bs).

(** What can happen next. *)
Inductive xev :=
| XTick
| XUser (a : uact)
| XDeliver (bs : list N)
| XFail (err : Z).

Definition step (s : st) (x : xev) : outcome st :=
  match x with
  | XTick => tick s
  | XUser a => user_act s a
  | XDeliver bs => Ret (handle_read (log (set_buf s (rb_store (buf s) bs)) (EvDeliver bs)) SUCCESS)
  | XFail err => Ret (handle_read (log s (EvFail err)) err)
  end.

(** When it can happen: the loop runs to its end before anything else; a read
    completes only if one is in flight, with at least one byte and no more than
    there is space for, or with an error. *)
Definition enabled (s : st) (x : xev) : Prop :=
  match x with
  | XTick => ct s = Loop
  | XUser _ => ct s = Idle
  | XDeliver bs => ct s = Idle /\ waiting s = true /\ bs <> [] /\ length bs <= rb_space (buf s) /\ ~ In EvClose (tr s)
  | XFail err => ct s = Idle /\ waiting s = true /\ err <> SUCCESS /\ ~ In EvClose (tr s)
  end.

Inductive reach (m : list N) : st -> Prop :=
| reach_init : reach m (bs_init m)
| reach_step s x s' : reach m s -> enabled s x -> step s x = Ret s' -> reach m s'.
End Env.
