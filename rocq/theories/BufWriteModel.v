(** Model of the writing half of lib/src/buffered_stream.c on the heap of
    WriteBufferModel.

    [B] is the address of the caller's chain head, [W] that of the stream's own
    head [buffered_stream->wbh], [T] that of [buffered_stream->write_buffer];
    [mem] is the byte memory the data pointers of the elements point into.
    The transport below ([stream->write_some]) is arbitrary: it refuses with an
    error, or completes - at once or later - with an error or with success and
    any number of accepted bytes (0 is what socket.c 177-189 reports after
    EAGAIN).  It reads the chain the way socket.c 197-211 does. *)
From Verif Require Import Base WriteBufferModel.
Open Scope N_scope.

Definition W_SUCCESS : Z := 0%Z.

(** socket.c stream_write 203-208: the iov entries of [k] elements from [p] on. *)
Fixpoint iov_walk (k : nat) (h : heap) (p : ptr) : outcome (list (N * N)) :=
  match k with
  | O => Ret []
  | S k' =>
      let* c := rd h p in
      let* r := iov_walk k' h (nx c) in
      Ret ((w0 c, w1 c) :: r)
  end.
(** socket.c 197, 203: [chain_length] elements, starting behind the head. *)
Definition iov (h : heap) (c : ptr) : outcome (list (N * N)) :=
  let* hc := rd h c in iov_walk (N.to_nat (w0 hc)) h (nx hc).

(** The bytes an iov entry denotes. *)
Definition entry_bytes (mem : N -> N) (x : N * N) : list N :=
  map (fun i => mem (fst x + N.of_nat i)) (seq 0 (N.to_nat (snd x))).
Definition iov_bytes (mem : N -> N) (l : list (N * N)) : list N := flat_map (entry_bytes mem) l.

(** Which write_some call is unfinished, or how the write has ended:
    [WReported err]: the user's handler was called with [err];
    [WRejected err]: cio_buffered_stream_write returned [err]. *)
Inductive wphase := WFirst | WLater | WReported (err : Z) | WRejected (err : Z).

Record wst := Wst { wh : heap; phase : wphase; accepted : list N (* bytes the transport took, in order *) }.

(** What the transport does with the write_some call in progress. *)
Inductive tev :=
| TSync (err : Z)             (* write_some returns an error *)
| TDone (err : Z) (n : N).    (* its handler is called with (err, n) *)

Section Addresses.
Variable fuel : nat.          (* bound on loop iterations; exceeding it counts as UB *)
Variable mem : N -> N.
Variables B W T : ptr.

(** handle_write 183-191: give everything back, in order. *)
Fixpoint hw_flush (fuel : nat) (h : heap) (wb : ptr) : outcome heap :=
  match fuel with
  | O => UB
  | S fuel' =>
      if wb =? 0 then Ret h
      else
        let* h := if wb =? T then Ret h else wb_queue_tail h B wb in
        let* (h, wb) := wb_dequeue h W in
        hw_flush fuel' h wb
  end.

(** handle_write 197-216; buffer_partially_written 167-170, buffer_is_temp_buffer 172-175. *)
Fixpoint hw_loop (fuel : nat) (h : heap) (wb : ptr) (n : N) : outcome heap :=
  match fuel with
  | O => UB
  | S fuel' =>
      if wb =? 0 then Ret h
      else
        let* c := rd h wb in
        if n <? w1 c then
          let* h := if wb =? T then Ret h else wb_queue_tail h B wb in
          let* c := rd h wb in
          let* h := wb_element_init h T (w0 c + n) (wsub (w1 c) n) in
          wb_queue_head h W T
        else
          let n := wsub n (w1 c) in
          let* h := if wb =? T then Ret h else wb_queue_tail h B wb in
          let* (h, wb) := wb_dequeue h W in
          hw_loop fuel' h wb n
  end.

(** handle_write 177-225. *)
Definition handle_write (h : heap) (err : Z) (n : N) : outcome (heap * wphase) :=
  if negb (Z.eqb err W_SUCCESS) then
    let* (h, wb) := wb_dequeue h W in
    let* h := hw_flush fuel h wb in
    Ret (h, WReported err)
  else
    let* (h, wb) := wb_dequeue h W in
    let* h := hw_loop fuel h wb n in
    let* e := wb_empty h W in
    Ret (h, if e then WReported W_SUCCESS else WLater).

(** The search loop of handle_partial_writes, 232-236. *)
Fixpoint hp_loop (fuel : nat) (h : heap) (p : ptr) (n : N) : outcome (ptr * N) :=
  match fuel with
  | O => UB
  | S fuel' =>
      let* c := rd h p in
      if n <? w1 c then Ret (p, n) else hp_loop fuel' h (nx c) (wsub n (w1 c))
  end.

(** handle_partial_writes 227-249. *)
Definition handle_partial_writes (h : heap) (n : N) : outcome (heap * wphase) :=
  let* h := wb_head_init h W in
  let* b := rd h B in
  let* (p, k) := hp_loop fuel h (nx b) n in
  let* c := rd h p in
  let* h := wb_element_init h T (w0 c + k) (wsub (w1 c) k) in
  let* h := wb_queue_head h W T in
  let* c := rd h p in
  let* h := wb_split_and_append fuel h W B (nx c) in
  Ret (h, WLater).

(** handle_first_write 251-265. *)
Definition handle_first_write (h : heap) (err : Z) (n : N) : outcome (heap * wphase) :=
  if negb (Z.eqb err W_SUCCESS) then Ret (h, WReported err)
  else
    let* b := rd h B in
    if n =? w1 b then Ret (h, WReported err)
    else handle_partial_writes h n.

(** The chain of the write_some call in progress: [B] for the first (358),
    [W] for the later ones (220, 245). *)
Definition current (p : wphase) : ptr := match p with WLater => W | _ => B end.

(** cio_buffered_stream_write 352-362 up to its write_some call. *)
Definition w_start (h : heap) : wst := Wst h WFirst [].

(** The transport reacts; what it accepts are the first bytes of the chain it was given. *)
Definition w_step (s : wst) (x : tev) : outcome wst :=
  match phase s, x with
  | WFirst, TSync err => Ret (Wst (wh s) (WRejected err) (accepted s))           (* 361 *)
  | WLater, TSync err => Ret (Wst (wh s) (WReported err) (accepted s))           (* 221-223, 246-248 *)
  | WFirst, TDone err n =>
      let* v := iov (wh s) B in
      let* (h, p) := handle_first_write (wh s) err n in
      Ret (Wst h p (accepted s ++ if Z.eqb err W_SUCCESS then firstn (N.to_nat n) (iov_bytes mem v) else []))
  | WLater, TDone err n =>
      let* v := iov (wh s) W in
      let* (h, p) := handle_write (wh s) err n in
      Ret (Wst h p (accepted s ++ if Z.eqb err W_SUCCESS then firstn (N.to_nat n) (iov_bytes mem v) else []))
  | _, _ => Ret s
  end.

(** A transport cannot accept more bytes than it is given; it acts only on a
    write_some call in progress; errors are errors. *)
Definition w_enabled (s : wst) (x : tev) : Prop :=
  (phase s = WFirst \/ phase s = WLater) /\
  match x with
  | TSync err => err <> W_SUCCESS
  | TDone err n => n < 2^64 /\ (err = W_SUCCESS -> forall v, iov (wh s) (current (phase s)) = Ret v ->
                   (N.to_nat n <= length (iov_bytes mem v))%nat)
  end.

(** Runs: the reactions so far, oldest first. *)
Inductive w_run (h : heap) : list tev -> wst -> Prop :=
| w_run_start : w_run h [] (w_start h)
| w_run_step es s x s' : w_run h es s -> w_enabled s x -> w_step s x = Ret s' -> w_run h (es ++ [x]) s'.
End Addresses.
