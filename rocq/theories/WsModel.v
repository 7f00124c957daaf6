(** Model of lib/src/websocket.c (all functions) on top of an abstract buffered
    stream.

    The library is single threaded and event driven, with user handlers that may
    call back into it.  A configuration is the websocket plus a stack of [op]s:
    what the C call stack still has to do.  [OUser] on top means that a user
    handler is running (it may call any API function or return), [OFire] that
    the buffered stream may fire a stored read request synchronously.  All
    choices of the environment (bytes and errors from the transport, result of
    the buffered stream's write, random masking keys, results of the timer
    functions, what the user calls) are arguments of the step function, so a
    theorem about all runs covers all of them.

    Simplifications: a write buffer chain is the list of its elements (address
    and bytes), which C08/C09 justify; on_error and on_control callbacks do not
    call back into the websocket (their documentation forbids it), so they are
    only events; the close hook is not NULL; read_buffer contents are the list
    of unread bytes. *)
From Verif Require Import Base Utf8Model MaskModel EndianModel.
From Coq Require Import String Ascii.
Import List ListNotations.
Open Scope N_scope.

Definition bytes_of_string (s : string) : list N :=
  map (fun a => N_of_ascii a) (list_ascii_of_string s).

(** error_code.h *)
Definition CIO_SUCCESS : Z := 0%Z.
Definition CIO_EOF : Z := 1%Z.
Definition CIO_OPERATION_ABORTED : Z := (-125)%Z.
Definition CIO_INVALID_ARGUMENT : Z := (-22)%Z.
Definition CIO_OPERATION_NOT_PERMITTED : Z := (-1)%Z.
Definition CIO_MESSAGE_TOO_LONG : Z := (-90)%Z.
Definition CIO_PROTOCOL_NOT_SUPPORTED : Z := (-93)%Z.

(** websocket.h 82-98, 100-107, websocket.c 47-53. *)
Definition CLOSE_NORMAL := 1000. Definition CLOSE_PROTOCOL_ERROR := 1002.
Definition CLOSE_UNSUPPORTED := 1003. Definition CLOSE_UNSUPPORTED_DATA := 1007.
Definition CLOSE_TOO_LARGE := 1009. Definition CLOSE_INTERNAL_ERROR := 1011.
Definition CLOSE_RESERVED_LOWER := 3000. Definition CLOSE_RESERVED_UPPER := 4999.
Definition CONTINUATION_FRAME := 0. Definition TEXT_FRAME := 1. Definition BINARY_FRAME := 2.
Definition CLOSE_FRAME := 8. Definition PING_FRAME := 9. Definition PONG_FRAME := 10.
Definition WS_HEADER_FIN := 0x80. Definition WS_MASK_SET := 0x80.
Definition OPCODE_MASK := 0x0f. Definition RSV_MASK := 0x70.
Definition SMALL_FRAME_SIZE := 125. Definition MID_FRAME_SIZE := 65535.
(** SIZE_MAX on a 64-bit target. *)
Definition SIZE_MAX := 18446744073709551615.

(** A write buffer chain: address and contents of each element. *)
Definition chain := list (nat * list N).
Definition chain_bytes (c : chain) : list N := concat (map snd c).
(** cio_write_buffer_get_total_size *)
Definition total_size (c : chain) : N := N.of_nat (length (chain_bytes c)).

(** * State *)
Inductive jname := JMsg | JPing | JPong | JClose.
Definition jname_eqb (a b : jname) : bool :=
  match a, b with JMsg, JMsg | JPing, JPing | JPong, JPong | JClose, JClose => true | _, _ => false end.

(** cio_websocket_write_handler_t: a user's handler (the number stands for
    function and context) or the library's own pong_frame_written. *)
Inductive handler := HUser (id : nat) | HPong.
Inductive stream_handler := SHMessage | SHResponseClose | SHClose | SHCloseImmediate.

(** struct cio_websocket_write_job, websocket.h 112-123. *)
Record job := Job {
  jnext : option jname; jwbh : option chain; jhandler : option handler;
  jtype : N; jlast : bool; jcont : bool; jsh : stream_handler }.

(** Receiving half of struct cio_websocket_private, websocket.h 131-168. *)
Record rx := Rx {
  fin : bool; opcode : N; frag : N; rfl : N; rem : N; utf8 : utf8_state; rmask : list N }.

(** Sending half. [inflight] counts the writes the buffered stream has accepted
    and not completed, [bswh] is its write_handler. *)
Record tx := Tx {
  jobs : jname -> job; first : option jname; last : option jname;
  cmask : list N; fragw : bool; inflight : nat; bswh : stream_handler }.

Inductive rcb := CbHeader | CbFirstLen | CbLen16 | CbLen64 | CbMask | CbPayload.
(** A read request of the buffered stream: callback, read_at_most?, number. *)
Record rreq := RReq { rq_cb : rcb; rq_most : bool; rq_n : N }.

(** What the application asks for. [None] as handler or payload is NULL. *)
Inductive api :=
| ARead                                            (* cio_websocket_read_message *)
| AFirst (id : option nat) (flen : N) (p : option chain) (last bin : bool)
| ACont (id : option nat) (p : option chain)
| APing (id : option nat) (p : option chain)
| APong (id : option nat) (p : option chain)
| AClose (id : option nat) (code : N) (reason : option (list N)).

(** The observable history, newest first. *)
Inductive ev :=
| EvData (bin : bool) (flen : N) (data : list N) (last_chunk last_frame : bool) (* read handler, success *)
| EvEof                                             (* read handler with CIO_EOF *)
| EvControl (kind : N) (data : list N)              (* on_control *)
| EvError (err : Z) (reason : list N)               (* on_error *)
| EvSend (j : jname) (c : chain)                    (* chain handed to the stream (header included) *)
| EvWriteDone (j : jname) (id : nat) (err : Z) (c : chain) (* a user's write handler; the chain afterwards *)
| EvHook                                            (* close hook *)
| EvCall (a : api)                                  (* API call *)
| EvAccept (j : jname) (jb : job) (len : N)          (* write accepted: job filled in, frame length given to enqueue_job *)
| EvRefuse (err : Z)                                (* API call returned an error at once *)
| EvRet (err : Z).                                  (* cio_websocket_write_message_* returned a send error *)

Record ws := Ws {
  R : rx; T : tx;
  cbe : bool;          (* closed_by_error *)
  selfc : bool;        (* self_initiated_close *)
  timer : bool;        (* close_timer armed *)
  hooked : bool;       (* close hook was called *)
  hasrh : bool;        (* read_handler != NULL *)
  rd : option rreq;    (* outstanding read of the buffered stream *)
  cbrun : nat;         (* its callback_is_running *)
  inp : list N;        (* all bytes consumed so far *)
  tr : list ev }.

Inductive op :=
| OUser | OFire
| OHandleError (err : Z) (code : N) (reason : list N)
| OAbort
| OErrClose (code : N) (reason : list N)
| OClose | OHook
| OStream (sh : stream_handler) (err : Z)
| OHandler (n : jname) (h : option handler) (err : Z) (c : chain)
| OCloseHandler (err : Z) (c : chain)             (* write_close_job.handler, read when it is called *)
| OMsgNext (j : option jname)
| OPongWritten (err : Z)
| OBsReturn
| ORet (err : Z).

(** Setters *)
Definition log (s : ws) (e : ev) : ws :=
  Ws (R s) (T s) (cbe s) (selfc s) (timer s) (hooked s) (hasrh s) (rd s) (cbrun s) (inp s) (e :: tr s).
Definition set_R (s : ws) (r : rx) : ws :=
  Ws r (T s) (cbe s) (selfc s) (timer s) (hooked s) (hasrh s) (rd s) (cbrun s) (inp s) (tr s).
Definition set_T (s : ws) (t : tx) : ws :=
  Ws (R s) t (cbe s) (selfc s) (timer s) (hooked s) (hasrh s) (rd s) (cbrun s) (inp s) (tr s).
Definition set_cbe (s : ws) : ws :=
  Ws (R s) (T s) true (selfc s) (timer s) (hooked s) (hasrh s) (rd s) (cbrun s) (inp s) (tr s).
Definition set_selfc (s : ws) : ws :=
  Ws (R s) (T s) (cbe s) true (timer s) (hooked s) (hasrh s) (rd s) (cbrun s) (inp s) (tr s).
Definition set_timer (s : ws) (b : bool) : ws :=
  Ws (R s) (T s) (cbe s) (selfc s) b (hooked s) (hasrh s) (rd s) (cbrun s) (inp s) (tr s).
Definition set_hooked (s : ws) : ws :=
  Ws (R s) (T s) (cbe s) (selfc s) (timer s) true (hasrh s) (rd s) (cbrun s) (inp s) (tr s).
Definition set_hasrh (s : ws) : ws :=
  Ws (R s) (T s) (cbe s) (selfc s) (timer s) (hooked s) true (rd s) (cbrun s) (inp s) (tr s).
Definition set_rd (s : ws) (r : option rreq) : ws :=
  Ws (R s) (T s) (cbe s) (selfc s) (timer s) (hooked s) (hasrh s) r (cbrun s) (inp s) (tr s).
Definition set_cbrun (s : ws) (n : nat) : ws :=
  Ws (R s) (T s) (cbe s) (selfc s) (timer s) (hooked s) (hasrh s) (rd s) n (inp s) (tr s).
(** cio_read_buffer_consume *)
Definition consume (s : ws) (bs : list N) : ws :=
  Ws (R s) (T s) (cbe s) (selfc s) (timer s) (hooked s) (hasrh s) (rd s) (cbrun s) (inp s ++ bs) (tr s).

Definition set_jobs (t : tx) (f : jname -> job) : tx :=
  Tx f (first t) (last t) (cmask t) (fragw t) (inflight t) (bswh t).
Definition upd (f : jname -> job) (n : jname) (j : job) : jname -> job :=
  fun m => if jname_eqb m n then j else f m.
Definition set_job (t : tx) (n : jname) (j : job) : tx := set_jobs t (upd (jobs t) n j).
Definition set_first (t : tx) (f : option jname) : tx :=
  Tx (jobs t) f (last t) (cmask t) (fragw t) (inflight t) (bswh t).
Definition set_last (t : tx) (l : option jname) : tx :=
  Tx (jobs t) (first t) l (cmask t) (fragw t) (inflight t) (bswh t).
Definition set_cmask (t : tx) (m : list N) : tx :=
  Tx (jobs t) (first t) (last t) m (fragw t) (inflight t) (bswh t).
Definition set_fragw (t : tx) (b : bool) : tx :=
  Tx (jobs t) (first t) (last t) (cmask t) b (inflight t) (bswh t).
Definition set_bs (t : tx) (n : nat) (h : stream_handler) : tx :=
  Tx (jobs t) (first t) (last t) (cmask t) (fragw t) n h.
Definition set_wbh (j : job) (c : option chain) : job :=
  Job (jnext j) c (jhandler j) (jtype j) (jlast j) (jcont j) (jsh j).
Definition set_next (j : job) (n : option jname) : job :=
  Job n (jwbh j) (jhandler j) (jtype j) (jlast j) (jcont j) (jsh j).

(** * Configuration of the platform and of this endpoint *)
Record cfg := Cfg {
  is_server : bool;
  rbsize : N;              (* size of the client's read buffer *)
  endian : endianness;
  wordsize : nat           (* sizeof(uint_fast32_t): 4 or 8 *) }.

(** Result of cio_buffered_stream_write: accepted and not finished yet, finished
    before it returns (handler called with the error), or refused. *)
Inductive wres := WPending | WSync (err : Z) | WErr (err : Z).
(** The environment's choices in one step. *)
Record choice := Choice {
  ch_write : wres;
  ch_key : list N;              (* cio_random_get_bytes *)
  ch_timer_init : Z; ch_timer_arm : Z;
  ch_addr : nat                 (* addresses of the buffers the library itself sends *) }.

Section Code.
Variable C : cfg.

(** * Masking and frame headers *)

(** [mask[i] = v] on a 4-byte array. *)
Fixpoint set_nth (l : list N) (i : nat) (v : N) : outcome (list N) :=
  match l, i with
  | [], _ => UB
  | _ :: r, O => Ret (v :: r)
  | x :: r, S i' => obind (set_nth r i' v) (fun r' => Ret (x :: r'))
  end.

(** swap, websocket.c 82-87. *)
Definition swap (mask : list N) (i j : nat) : outcome (list N) :=
  obind (idx mask i) (fun tmp =>
  obind (idx mask j) (fun b =>
  obind (set_nth mask i b) (fun m =>
  set_nth m j tmp))).

(** rotate, websocket.c 89-104.  The fuel bounds the loop; running out is UB, so
    any proof about the result also proves that 16 rounds suffice. *)
Fixpoint rotate_loop (fuel : nat) (mask : list N) (fst nxt middle : nat) : outcome (list N) :=
  if Nat.eqb fst nxt then Ret mask else
  match fuel with
  | O => UB
  | S fuel' =>
      obind (swap mask fst nxt) (fun m =>
      let fst' := S fst in
      let nxt' := S nxt in
      if Nat.leb 4 nxt' then rotate_loop fuel' m fst' middle middle
      else if Nat.eqb fst' middle then rotate_loop fuel' m fst' nxt' nxt'
      else rotate_loop fuel' m fst' nxt' middle)
  end.
Definition rotate (mask : list N) (middle : nat) : outcome (list N) := rotate_loop 16 mask 0 middle middle.

(** mask_write_buffer, websocket.c 106-115: masks every element in place and
    rotates the mask by the element's length.  Result: chain and final mask. *)
Fixpoint mask_write_buffer (c : chain) (mask : list N) : outcome (chain * list N) :=
  match c with
  | [] => Ret ([], mask)
  | (addr, data) :: r =>
      obind (ws_mask (endian C) (wordsize C) addr data 0 (length data) mask) (fun data' =>
      obind (rotate mask (Nat.modulo (length data) 4)) (fun mask' =>
      obind (mask_write_buffer r mask') (fun x => Ret ((addr, data') :: fst x, snd x))))
  end.

(** Header of send_frame, websocket.c 119-154, without the masking of the
    payload: first byte, length byte, extended length, masking key. *)
Definition send_header (type : N) (last : bool) (frame_length : N) (key : list N) : list N :=
  let first_byte := if last then N.lor type WS_HEADER_FIN else type in
  let '(first_len, ext) :=
    if N.leb frame_length SMALL_FRAME_SIZE then (frame_length, [])
    else if N.leb frame_length MID_FRAME_SIZE then
      (SMALL_FRAME_SIZE + 1, store_word (endian C) 2 (htobe (endian C) 2 (frame_length mod 65536)))
    else
      (SMALL_FRAME_SIZE + 2, store_word (endian C) 8 (htobe (endian C) 8 frame_length)) in
  if is_server C then first_byte :: first_len :: ext
  else first_byte :: N.lor first_len WS_MASK_SET :: ext ++ key.

(** Result of send_frame: what the caller has to go on with. *)
Inductive sres := SPending | SSync (sh : stream_handler) (err : Z) | SErr (err : Z).

(** cio_buffered_stream_write as seen from here: stores the write handler, then
    one of the three results. *)
Definition bs_write (s : ws) (n : jname) (c : chain) (sh : stream_handler) (ch : choice) : ws * sres :=
  let s := log s (EvSend n c) in
  match ch_write ch with
  | WPending => (set_T s (set_bs (T s) (S (inflight (T s))) sh), SPending)
  | WSync e => (set_T s (set_bs (T s) (inflight (T s)) sh), SSync sh e)
  | WErr e => (set_T s (set_bs (T s) (inflight (T s)) sh), SErr e)
  end.

(** send_frame, websocket.c 117-175. *)
Definition send_frame (s : ws) (n : jname) (frame_length : N) (ch : choice) : outcome (ws * sres) :=
  let j := jobs (T s) n in
  match jwbh j with
  | None => UB
  | Some c =>
      if jcont j then
        if is_server C then Ret (bs_write s n c (jsh j) ch)
        else
          obind (mask_write_buffer c (cmask (T s))) (fun x =>
          let '(c', mask') := x in
          obind (correct_mask mask' (length (chain_bytes c))) (fun mask'' =>
          let t := set_cmask (set_job (T s) n (set_wbh j (Some c'))) mask'' in
          Ret (bs_write (set_T s t) n c' (jsh j) ch)))
      else
        let hd := send_header (jtype j) (jlast j) frame_length (ch_key ch) in
        if is_server C then
          let c' := (ch_addr ch, hd) :: c in
          Ret (bs_write (set_T s (set_job (T s) n (set_wbh j (Some c')))) n c' (jsh j) ch)
        else
          obind (mask_write_buffer c (ch_key ch)) (fun x =>
          let '(c', mask') := x in
          let t := if N.ltb (total_size c) frame_length then set_cmask (T s) mask' else T s in
          let c'' := (ch_addr ch, hd) :: c' in
          Ret (bs_write (set_T s (set_job t n (set_wbh j (Some c'')))) n c'' (jsh j) ch))
  end.

(** * Job queue *)

(** enqueue_job, websocket.c 177-193.  [kerr] is what the caller does when an
    error is returned. *)
Definition enqueue_job (s : ws) (n : jname) (len : N) (ch : choice) (kerr : Z -> list op) : outcome (ws * list op) :=
  match first (T s) with
  | None =>
      let s := set_T s (set_last (set_first (T s) (Some n)) (Some n)) in
      obind (send_frame s n len ch) (fun r =>
      match snd r with
      | SPending => Ret (fst r, [])
      | SSync sh e => Ret (fst r, [OStream sh e])
      | SErr e => Ret (fst r, OHandleError e CLOSE_INTERNAL_ERROR (bytes_of_string "Could not send frame") :: kerr e)
      end)
  | Some _ =>
      match last (T s) with
      | None => UB
      | Some l =>
          let t := T s in
          let t := set_job t l (set_next (jobs t l) (Some n)) in
          Ret (set_T s (set_last t (Some n)), [])
      end
  end.

(** dequeue_job, websocket.c 195-209. *)
Definition opt_eqb (a b : option jname) : bool :=
  match a, b with
  | Some x, Some y => jname_eqb x y
  | None, None => true
  | _, _ => false
  end.
Definition dequeue_job (t : tx) : option jname * tx :=
  match first t with
  | None => (None, t)
  | Some n =>
      if opt_eqb (first t) (last t) then (Some n, set_first t None)
      else (Some n, set_first t (jnext (jobs t n)))
  end.

(** write_jobs_popfront, websocket.c 280-287: dequeue, take the first element
    (the header) off the chain, forget the chain.  Result: the job and the chain
    as the user gets it back. *)
Definition write_jobs_popfront (t : tx) : outcome (tx * jname * chain) :=
  match dequeue_job t with
  | (None, _) => UB
  | (Some n, t) =>
      match jwbh (jobs t n) with
      | None => UB
      | Some c => Ret (set_job t n (set_wbh (jobs t n) None), n, tl c)
      end
  end.

(** prepare_close_job, websocket.c 225-246; sizeof(close_buffer.buffer) = 125. *)
Definition prepare_close_job (s : ws) (code : N) (reason : option (list N)) (h : option handler)
           (sh : stream_handler) (ch : choice) : ws :=
  let status := store_word (endian C) 2 (htobe (endian C) 2 (code mod 65536)) in
  let buffer := match reason with
                | None => status
                | Some r => status ++ firstn (Nat.min (length r) (125 - 2)) r
                end in
  let j := jobs (T s) JClose in
  let j := Job (jnext j) (Some [(ch_addr ch, buffer)]) h CLOSE_FRAME true (jcont j) sh in
  set_T s (set_job (T s) JClose j).

(** size of the prepared close job's payload *)
Definition close_size (s : ws) : N :=
  match jwbh (jobs (T s) JClose) with Some c => total_size c | None => 0 end.
(** (history only) the close job is about to be queued *)
Definition accept_close (s : ws) : ws := log s (EvAccept JClose (jobs (T s) JClose) (close_size s)).

(** * Reading *)

(** cio_buffered_stream_read_at_least / _at_most; on refusal the caller's
    handle_error with its message. *)
Definition bs_read (s : ws) (cb : rcb) (most : bool) (n : N) (msg : string) : ws * list op :=
  if (negb most && N.ltb (rbsize C) n)%bool
  then (s, [OHandleError CIO_MESSAGE_TOO_LONG CLOSE_INTERNAL_ERROR (bytes_of_string msg)])
  else (set_rd s (Some (RReq cb most n)), if Nat.eqb (cbrun s) 0 then [OFire] else []).

Definition proto_error (msg : string) : op :=
  OHandleError CIO_PROTOCOL_NOT_SUPPORTED CLOSE_PROTOCOL_ERROR (bytes_of_string msg).

(** is_invalid_status_code, websocket.c 339-354. *)
Definition is_invalid_status_code (c : N) : bool :=
  if (N.leb CLOSE_NORMAL c && N.leb c CLOSE_UNSUPPORTED)%bool then false
  else if (N.leb CLOSE_UNSUPPORTED_DATA c && N.leb c CLOSE_INTERNAL_ERROR)%bool then false
  else if (N.leb CLOSE_RESERVED_LOWER c && N.leb c CLOSE_RESERVED_UPPER)%bool then false
  else true.

(** is_control_frame, websocket.c 356-359. *)
Definition is_control_frame (op : N) : bool := N.leb CLOSE_FRAME op.

(** handle_binary_frame 390-400, handle_text_frame 402-424. *)
Definition set_rmask (r : rx) (m : list N) : rx := Rx (fin r) (opcode r) (frag r) (rfl r) (rem r) (utf8 r) m.
Definition set_utf8 (r : rx) (u : utf8_state) : rx := Rx (fin r) (opcode r) (frag r) (rfl r) (rem r) u (rmask r).

Definition handle_binary_frame (s : ws) (data : list N) (last_frame : bool) : outcome (ws * list op) :=
  let last_chunk := N.eqb (rem (R s)) 0 in
  obind (if last_chunk then Ret s
         else obind (correct_mask (rmask (R s)) (length data)) (fun m => Ret (set_R s (set_rmask (R s) m)))) (fun s =>
  Ret (log s (EvData true (rfl (R s)) data last_chunk last_frame), [OUser])).

Definition handle_text_frame (s : ws) (addr : nat) (data : list N) (last_frame : bool) : outcome (ws * list op) :=
  obind (check_utf8 (N.of_nat (wordsize C)) (N.of_nat addr) (utf8 (R s)) data (N.of_nat (length data))) (fun x =>
  let '(u, status) := x in
  let s := set_R s (set_utf8 (R s) u) in
  if (N.eqb status CIO_UTF8_REJECT || (last_frame && negb (N.eqb status CIO_UTF8_ACCEPT)))%bool
  then Ret (s, [OHandleError CIO_PROTOCOL_NOT_SUPPORTED CLOSE_UNSUPPORTED_DATA (bytes_of_string "payload not valid utf8")])
  else
    let last_chunk := N.eqb (rem (R s)) 0 in
    let s := if last_frame then set_R s (set_utf8 (R s) (utf8_init (utf8 (R s)))) else s in
    obind (if last_chunk then Ret s
           else obind (correct_mask (rmask (R s)) (length data)) (fun m => Ret (set_R s (set_rmask (R s) m)))) (fun s =>
    Ret (log s (EvData false (rfl (R s)) data last_chunk last_frame), [OUser]))).

(** memcpy(&status_code, data, 2) + cio_be16toh. *)
Definition load_be (n : nat) (l : list N) : outcome N :=
  if Nat.ltb (length l) n then UB
  else Ret (betoh (endian C) n (load_word (endian C) (firstn n l))).

(** handle_close_frame, websocket.c 426-476.  [data] is all the memory that
    belongs to the payload.  [length - 2] is computed in int and converted to
    size_t, so it wraps around below zero. *)
Definition size_minus_2 (n : N) : N := if N.leb 2 n then n - 2 else SIZE_MAX + 1 + n - 2.

(** What the payload check decides: the error to report, or status code and
    number of reason bytes. *)
Inductive close_verdict := CVError (code : N) (reason : string) | CVOk (status : N) (len : N).
Definition check_close_payload (addr : nat) (data : list N) : outcome close_verdict :=
  let len := N.of_nat (length data) in
  if N.eqb len 1 then Ret (CVError CLOSE_PROTOCOL_ERROR "close payload of length 1")
  else
    obind (if N.leb 2 len then obind (load_be 2 data) (fun c => Ret (c, len - 2)) else Ret (CLOSE_NORMAL, len)) (fun x =>
    let '(status, len') := x in
    if (N.leb 2 len && is_invalid_status_code status)%bool
    then Ret (CVError CLOSE_PROTOCOL_ERROR "invalid status code in close")
    else if N.ltb 0 len' then
      obind (check_utf8 (N.of_nat (wordsize C)) (N.of_nat (addr + 2)) (utf8_init (mk_utf8 0 0)) (skipn 2 data) (size_minus_2 len')) (fun r =>
      if N.eqb (snd r) CIO_UTF8_ACCEPT then Ret (CVOk status len')
      else Ret (CVError CLOSE_UNSUPPORTED_DATA "reason in close frame not utf8 valid"))
    else Ret (CVOk status len')).

Definition handle_close_frame (s : ws) (addr : nat) (data : list N) (ch : choice) : outcome (ws * list op) :=
  obind (check_close_payload addr data) (fun v =>
  match v with
  | CVError code reason => Ret (s, [OHandleError CIO_PROTOCOL_NOT_SUPPORTED code (bytes_of_string reason)])
  | CVOk status len =>
      let s := log s (EvControl CLOSE_FRAME data) in
      if selfc s then Ret (set_timer s false, [OClose])
      else
        let reason := if N.ltb 0 len then Some (skipn 2 data) else None in
        let s := accept_close (prepare_close_job s status reason None SHResponseClose ch) in
        enqueue_job s JClose (close_size s) ch (fun _ => [])
  end).

(** handle_ping_frame, websocket.c 494-516; the ping buffer has 125 bytes. *)
Definition handle_ping_frame (s : ws) (data : list N) (ch : choice) : outcome (ws * list op) :=
  if Nat.ltb 125 (length data) then UB else
  let c := if Nat.ltb 0 (length data) then [(ch_addr ch, data)] else [] in
  let s := log s (EvControl PING_FRAME data) in
  let j := jobs (T s) JPong in
  let j := Job (jnext j) (Some c) (Some HPong) PONG_FRAME true (jcont j) SHMessage in
  let s := log (set_T s (set_job (T s) JPong j)) (EvAccept JPong j (total_size c)) in
  enqueue_job s JPong (total_size c) ch (fun _ => []).

(** handle_pong_frame, websocket.c 518-529. *)
Definition handle_pong_frame (s : ws) (data : list N) : ws * list op :=
  bs_read (log s (EvControl PONG_FRAME data)) CbHeader false 1 "could not restart receiving handling a pong frame received".

(** handle_frame, websocket.c 531-563. *)
Definition handle_frame (s : ws) (addr : nat) (data : list N) (ch : choice) : outcome (ws * list op) :=
  obind (if is_server C
         then ws_mask (endian C) (wordsize C) addr data 0 (length data) (rmask (R s))
         else Ret data) (fun data =>
  let op := opcode (R s) in
  if N.eqb op BINARY_FRAME then handle_binary_frame s data (fin (R s))
  else if N.eqb op TEXT_FRAME then handle_text_frame s addr data (fin (R s))
  else if N.eqb op PING_FRAME then handle_ping_frame s data ch
  else if N.eqb op PONG_FRAME then Ret (handle_pong_frame s data)
  else if N.eqb op CLOSE_FRAME then handle_close_frame s addr data ch
  else Ret (s, [proto_error "reserved opcode used"])).

Definition set_rem (r : rx) (n : N) : rx := Rx (fin r) (opcode r) (frag r) (rfl r) n (utf8 r) (rmask r).
Definition set_len (r : rx) (n : N) : rx := Rx (fin r) (opcode r) (frag r) n n (utf8 r) (rmask r).

(** get_payload, websocket.c 580-598 (success part): [view] are the unread bytes. *)
Definition get_payload (s : ws) (addr : nat) (view : list N) (num_bytes : nat) (ch : choice) : outcome (ws * list op) :=
  let '(s, num_bytes) :=
    if is_control_frame (opcode (R s)) then (s, num_bytes)
    else
      let n := N.min (rem (R s)) (N.of_nat (length view)) in
      (set_R s (set_rem (R s) (rem (R s) - n)), N.to_nat n) in
  if Nat.ltb (length view) num_bytes then UB
  else handle_frame (consume s (firstn num_bytes view)) addr (firstn num_bytes view) ch.

(** read_payload, websocket.c 600-621. *)
Definition read_payload (s : ws) (ch : choice) : outcome (ws * list op) :=
  if N.ltb 0 (rem (R s)) then
    if N.ltb SIZE_MAX (rem (R s))
    then Ret (s, [OHandleError CIO_MESSAGE_TOO_LONG CLOSE_TOO_LARGE (bytes_of_string "websocket frame to large to process!")])
    else Ret (bs_read s CbPayload (negb (is_control_frame (opcode (R s)))) (rem (R s)) "error while start reading websocket payload")
  else handle_frame s 0 [] ch.

(** get_mask, websocket.c 623-635: memcpy of num_bytes into received_mask[4]. *)
Definition get_mask (s : ws) (view : list N) (num_bytes : nat) (ch : choice) : outcome (ws * list op) :=
  if (Nat.ltb 4 num_bytes || Nat.ltb (length view) num_bytes)%bool then UB else
  let s := set_R s (set_rmask (R s) (firstn num_bytes view ++ skipn num_bytes (rmask (R s)))) in
  read_payload (consume s (firstn num_bytes view)) ch.

(** get_mask_or_payload, websocket.c 637-647. *)
Definition get_mask_or_payload (s : ws) (ch : choice) : outcome (ws * list op) :=
  if is_server C then Ret (bs_read s CbMask false 4 "error while start reading websocket mask")
  else read_payload s ch.

(** get_length16 649-665 and get_length64 667-689: memcpy of num_bytes into a
    zeroed integer of [w] bytes. *)
Definition get_length (w : nat) (s : ws) (view : list N) (num_bytes : nat) (ch : choice) : outcome (ws * list op) :=
  if (Nat.ltb w num_bytes || Nat.ltb (length view) num_bytes)%bool then UB else
  let s := consume s (firstn num_bytes view) in
  let field := betoh (endian C) w (load_word (endian C) (firstn num_bytes view ++ repeat 0 (w - num_bytes))) in
  if N.ltb SIZE_MAX field
  then Ret (s, [OHandleError CIO_MESSAGE_TOO_LONG CLOSE_TOO_LARGE (bytes_of_string "websocket frame to large to process!")])
  else get_mask_or_payload (set_R s (set_len (R s) field)) ch.

(** get_first_length, websocket.c 691-730. *)
Definition get_first_length (s : ws) (view : list N) (num_bytes : nat) (ch : choice) : outcome (ws * list op) :=
  match view with
  | [] => UB
  | field :: _ =>
      if Nat.ltb (length view) num_bytes then UB else
      let s := consume s (firstn num_bytes view) in
      let frame_is_masked := N.eqb (N.land field WS_MASK_SET) WS_MASK_SET in
      if negb (Bool.eqb frame_is_masked (is_server C))
      then Ret (s, [proto_error "received unmasked frame on server websocket"])
      else
        let field := N.land field 0x7f in
        if N.leb field SMALL_FRAME_SIZE then get_mask_or_payload (set_R s (set_len (R s) field)) ch
        else if is_control_frame (opcode (R s)) then Ret (s, [proto_error "payload of control frame too long"])
        else if N.eqb field (SMALL_FRAME_SIZE + 1)
        then Ret (bs_read s CbLen16 false 2 "error while start reading extended websocket frame length")
        else Ret (bs_read s CbLen64 false 8 "error while start reading extended websocket frame length")
  end.

Definition set_op (r : rx) (o f : N) : rx := Rx (fin r) o f (rfl r) (rem r) (utf8 r) (rmask r).
Definition set_fin (r : rx) (b : bool) : rx := Rx b (opcode r) (frag r) (rfl r) (rem r) (utf8 r) (rmask r).

(** handle_fin, websocket.c 732-774: an error message or the new flags. *)
Definition handle_fin (r : rx) (first_header_byte : N) : string + rx :=
  let o := N.land first_header_byte OPCODE_MASK in
  if (negb (fin r) && N.leb CLOSE_FRAME o)%bool then inl "got fragmented control frame"%string
  else if fin r then
    if negb (N.eqb o CONTINUATION_FRAME) then
      if (negb (N.eqb (frag r) 0) && negb (is_control_frame o))%bool
      then inl "got non-continuation frame within fragmented stream"%string
      else inr (set_op r (N.land o OPCODE_MASK) (frag r))
    else if N.eqb (frag r) 0 then inl "got continuation frame without correct start frame"%string
    else inr (set_op r (frag r) 0)
  else
    if negb (N.eqb o CONTINUATION_FRAME) then
      if negb (N.eqb (frag r) 0)
      then inl "got non-continuation frame within fragmented stream"%string
      else inr (set_op r (N.land o OPCODE_MASK) (N.land o OPCODE_MASK))
    else if N.eqb (frag r) 0 then inl "got continuation frame without correct start frame"%string
    else inr (set_op r (frag r) (frag r)).

(** get_header, websocket.c 776-806. *)
Definition get_header (s : ws) (view : list N) (num_bytes : nat) : outcome (ws * list op) :=
  match view with
  | [] => UB
  | field :: _ =>
      if Nat.ltb (length view) num_bytes then UB else
      let s := consume s (firstn num_bytes view) in
      let s := set_R s (set_fin (R s) (N.eqb (N.land field WS_HEADER_FIN) WS_HEADER_FIN)) in
      if negb (N.eqb (N.land field RSV_MASK) 0)
      then Ret (s, [proto_error "reserved bit set in frame"])
      else
        match handle_fin (R s) field with
        | inl msg => Ret (s, [proto_error msg])
        | inr r => Ret (bs_read (set_R s r) CbFirstLen false 1 "error while start reading websocket frame length")
        end
  end.

(** What the buffered stream reports: an error, or the unread bytes (at address
    [addr]). *)
Inductive fired := FErr (err : Z) | FData (addr : nat) (view : list N).

(** handled_read_error, websocket.c 565-578. *)
Definition read_error (err : Z) : op :=
  if Z.eqb err CIO_EOF then OHandleError CIO_EOF CLOSE_NORMAL (bytes_of_string "connection closed by other peer")
  else OHandleError err CLOSE_INTERNAL_ERROR (bytes_of_string "error while reading websocket packet").

(** The stored read request fires: buffered_stream.c 55-68 around the callback;
    the number of bytes reported is that of 114-129 / 151-165. *)
Definition fire (s : ws) (rq : rreq) (f : fired) (ch : choice) : outcome (ws * list op) :=
  let s := set_cbrun (set_rd s None) (S (cbrun s)) in
  obind (match f with
         | FErr err => Ret (s, [read_error err])
         | FData addr view =>
             let num := if rq_most rq then N.to_nat (N.min (N.of_nat (length view)) (rq_n rq)) else N.to_nat (rq_n rq) in
             match rq_cb rq with
             | CbHeader => get_header s view num
             | CbFirstLen => get_first_length s view num ch
             | CbLen16 => get_length 2 s view num ch
             | CbLen64 => get_length 8 s view num ch
             | CbMask => get_mask s view num ch
             | CbPayload => get_payload s addr view num ch
             end
         end) (fun r => Ret (fst r, snd r ++ [OBsReturn])).

(** * The rest of the call stack *)

(** [if (job->handler) job->handler(...)] *)
Definition call_handler (s : ws) (n : jname) (h : option handler) (err : Z) (c : chain) : outcome (ws * list op) :=
  match h with
  | None => Ret (s, [])
  | Some HPong => Ret (s, [OPongWritten err])
  | Some (HUser id) => Ret (log s (EvWriteDone n id err c), [OUser])
  end.

(** close_frame_written, websocket.c 323-329: job->handler is read after
    abort_write_jobs, when a handler may already have called cio_websocket_close
    again.  (For a job other than the close job the model reads it before; there
    the two only differ if the popped job is not the close job.) *)
Definition close_handler (t : tx) (n : jname) (err : Z) (c : chain) : op :=
  match n with JClose => OCloseHandler err c | _ => OHandler n (jhandler (jobs t n)) err c end.

(** One pending operation. *)
Definition run_op (s : ws) (o : op) (ch : choice) : outcome (ws * list op) :=
  match o with
  | OUser | OFire => Ret (s, [])
  (** handle_error, websocket.c 262-278 *)
  | OHandleError err code reason =>
      if cbe s then Ret (s, [])
      else Ret (log (set_cbe s) (EvError err reason), [OAbort; OErrClose code reason])
  (** abort_write_jobs, websocket.c 211-223, one round of its loop *)
  | OAbort =>
      match dequeue_job (T s) with
      | (None, t) => Ret (set_T s t, [])
      | (Some n, t) =>
          let h := jhandler (jobs t n) in
          let c := match jwbh (jobs t n) with Some c => c | None => [] end in
          let t := set_job t n (set_wbh (jobs t n) None) in
          Ret (set_T s t, [OHandler n h CIO_OPERATION_ABORTED c; OAbort])
      end
  (** handle_error, websocket.c 270-276 *)
  | OErrClose code reason =>
      let s := accept_close (prepare_close_job s code (Some reason) None SHCloseImmediate ch) in
      enqueue_job s JClose (close_size s) ch (fun _ => [OClose])
  (** close, websocket.c 61-70 *)
  | OClose => if hasrh s then Ret (log s EvEof, [OUser; OHook]) else Ret (s, [OHook])
  | OHook => Ret (log (set_hooked s) EvHook, [OUser])
  (** message_written 289-305, response_close_frame_written 307-317,
      close_frame_written 319-330, close_frame_written_immediate_close 332-337 *)
  | OStream sh err =>
      obind (write_jobs_popfront (T s)) (fun x =>
      let '(t, n, c) := x in
      let s := set_T s t in
      match sh with
      | SHMessage =>
          match jhandler (jobs t n) with
          | None => UB
          | Some _ => Ret (s, [OHandler n (jhandler (jobs t n)) err c; OMsgNext (first (T s))])
          end
      | SHResponseClose => Ret (s, [OAbort; OClose])
      | SHClose => Ret (s, [OAbort; close_handler t n err c])
      | SHCloseImmediate => Ret (s, [OAbort; close_handler t n err c; OClose])
      end)
  (** job->handler(...) *)
  | OHandler n h err c => call_handler s n h err c
  | OCloseHandler err c => call_handler s JClose (jhandler (jobs (T s) JClose)) err c
  (** message_written, websocket.c 298-304 *)
  | OMsgNext None => Ret (s, [])
  | OMsgNext (Some n) =>
      match jwbh (jobs (T s) n) with
      | None => UB
      | Some c =>
          obind (send_frame s n (total_size c) ch) (fun r =>
          match snd r with
          | SPending => Ret (fst r, [])
          | SSync sh e => Ret (fst r, [OStream sh e])
          | SErr e => Ret (fst r, [OHandleError e CLOSE_INTERNAL_ERROR (bytes_of_string "could not send next frame")])
          end)
      end
  (** pong_frame_written, websocket.c 478-492 *)
  | OPongWritten err =>
      if negb (Z.eqb err CIO_SUCCESS)
      then Ret (s, [OHandleError err CLOSE_INTERNAL_ERROR (bytes_of_string "pong frame not written correctly")])
      else Ret (bs_read s CbHeader false 1 "could not restart receiving after pong frame written")
  | OBsReturn => Ret (set_cbrun s (pred (cbrun s)), [])
  | ORet err => Ret (log s (EvRet err), [])
  end.

(** * API *)

(** payload_size_in_limit, websocket.c 371-388. *)
Definition payload_size_in_limit (p : option chain) (limit : N) : bool :=
  match p with None => true | Some c => N.leb (total_size c) limit end.

Definition refuse (s : ws) (err : Z) : outcome (ws * list op) := Ret (log s (EvRefuse err), []).

(** write_ping_or_pong_message, websocket.c 808-832. *)
Definition write_ping_or_pong (s : ws) (type : N) (n : jname) (id : option nat) (p : option chain) (ch : choice) : outcome (ws * list op) :=
  match id with
  | None => refuse s CIO_INVALID_ARGUMENT
  | Some id =>
      if negb (payload_size_in_limit p SMALL_FRAME_SIZE) then refuse s CIO_INVALID_ARGUMENT
      else
        let j := jobs (T s) n in
        match jwbh j with
        | Some _ => refuse s CIO_OPERATION_NOT_PERMITTED
        | None =>
            match p with
            | None => UB
            | Some c =>
                let j := Job (jnext j) (Some c) (Some (HUser id)) type true (jcont j) SHMessage in
                let s := log (set_T s (set_job (T s) n j)) (EvAccept n j (total_size c)) in
                enqueue_job s n (total_size c) ch (fun _ => [])
            end
        end
  end.

(** One API call. *)
Definition call (s : ws) (a : api) (ch : choice) : outcome (ws * list op) :=
  let s := log s (EvCall a) in
  match a with
  (** cio_websocket_read_message, websocket.c 912-934 (non-NULL handler) *)
  | ARead =>
      let s := set_hasrh s in
      if N.eqb (rem (R s)) 0
      then Ret (bs_read s CbHeader false 1 "error while start reading websocket header")
      else Ret (bs_read s CbPayload true (rem (R s)) "error while start reading websocket header")
  (** cio_websocket_write_message_first_chunk, websocket.c 936-974 *)
  | AFirst id flen p last_frame bin =>
      match id with
      | None => refuse s CIO_INVALID_ARGUMENT
      | Some id =>
          let j := jobs (T s) JMsg in
          match jwbh j with
          | Some _ => refuse s CIO_OPERATION_NOT_PERMITTED
          | None =>
              let '(kind, fw) :=
                if fragw (T s) then (if bin then BINARY_FRAME else TEXT_FRAME, if last_frame then true else false)
                else (CONTINUATION_FRAME, if last_frame then true else false) in
              let j := Job (jnext j) p (Some (HUser id)) kind last_frame false SHMessage in
              let s := log (set_T s (set_fragw (set_job (T s) JMsg j) fw)) (EvAccept JMsg j flen) in
              enqueue_job s JMsg flen ch (fun e => [ORet e])
          end
      end
  (** cio_websocket_write_message_continuation_chunk, websocket.c 976-984 *)
  | ACont id p =>
      let j := jobs (T s) JMsg in
      let h := match id with Some i => Some (HUser i) | None => None end in
      let j := Job (jnext j) p h (jtype j) (jlast j) true SHMessage in
      let s := log (set_T s (set_job (T s) JMsg j)) (EvAccept JMsg j 0) in
      enqueue_job s JMsg 0 ch (fun e => [ORet e])
  (** cio_websocket_write_ping 986-993, _pong 995-1002 *)
  | APing id p => write_ping_or_pong s PING_FRAME JPing id p ch
  | APong id p => write_ping_or_pong s PONG_FRAME JPong id p ch
  (** cio_websocket_close, websocket.c 878-910 *)
  | AClose id code reason =>
      match id with
      | None => refuse s CIO_INVALID_ARGUMENT
      | Some id =>
          match jwbh (jobs (T s) JClose) with
          | Some _ => refuse s CIO_OPERATION_NOT_PERMITTED
          | None =>
              let s := prepare_close_job s code reason (Some (HUser id)) SHClose ch in
              if negb (Z.eqb (ch_timer_init ch) CIO_SUCCESS) then refuse s (ch_timer_init ch)
              else if negb (Z.eqb (ch_timer_arm ch) CIO_SUCCESS) then refuse s (ch_timer_arm ch)
              else
                let s := accept_close (set_selfc (set_timer s true)) in
                enqueue_job s JClose (close_size s) ch (fun _ => [])
          end
      end
  end.

(** * Steps *)
Definition conf := (ws * list op)%type.

Inductive act :=
| XOp (ch : choice)                    (* run the topmost operation; OUser/OFire: return *)
| XApi (a : api) (ch : choice)         (* the user calls *)
| XFire (f : fired) (ch : choice)      (* the stored read request completes *)
| XWritten (err : Z)                   (* a write completes *)
| XTimer (err : Z).                    (* the close timer expires *)

Definition lift (r : outcome (ws * list op)) (k : list op) : outcome conf :=
  obind r (fun x => Ret (fst x, snd x ++ k)).

Definition step (c : conf) (x : act) : outcome conf :=
  let '(s, k) := c in
  match x with
  | XOp ch => match k with [] => Ret (s, []) | o :: k' => lift (run_op s o ch) k' end
  | XApi a ch => lift (call s a ch) k
  | XFire f ch => match rd s with None => Ret (s, k) | Some rq => lift (fire s rq f ch) k end
  | XWritten err => lift (Ret (set_T s (set_bs (T s) (pred (inflight (T s))) (bswh (T s))), [OStream (bswh (T s)) err])) k
  (** close_timeout_handler, websocket.c 361-369 *)
  | XTimer err => lift (Ret (set_timer s false, [OClose])) k
  end.

(** The user's code has control: in the event loop or inside a handler. *)
Definition user_control (k : list op) : Prop := k = [] \/ exists k', k = OUser :: k'.
Definition fire_ok (rq : rreq) (f : fired) : Prop :=
  match f with
  | FErr err => err <> CIO_SUCCESS
  | FData addr view => bytes_ok view /\
      if rq_most rq then view <> [] else (rq_n rq <= N.of_nat (length view))
  end.
Definition choice_ok (ch : choice) : Prop :=
  length (ch_key ch) = 4%nat /\ bytes_ok (ch_key ch) /\
  match ch_write ch with WErr e => e <> CIO_SUCCESS | _ => True end.
Definition chain_ok (p : option chain) : Prop :=
  match p with None => True | Some c => bytes_ok (chain_bytes c) /\ total_size c <= SIZE_MAX end.
Definition api_ok (a : api) : Prop :=
  match a with
  | AFirst _ flen p _ _ => chain_ok p /\ flen <= SIZE_MAX
  | ACont _ p | APing _ p | APong _ p => chain_ok p
  | AClose _ code r => code < 65536 /\ match r with None => True | Some l => bytes_ok l end
  | ARead => True
  end.

(** When a step can happen.  After the close hook the stream is closed: no read
    or write completes, and the user does not use the websocket any more; the
    close timer belongs to the websocket, so it can still expire. *)
Definition enabled (c : conf) (x : act) : Prop :=
  let '(s, k) := c in
  match x with
  | XOp ch => k <> [] /\ choice_ok ch
  | XApi a ch => user_control k /\ hooked s = false /\ choice_ok ch /\ api_ok a
  | XFire f ch => (k = [] \/ exists k', k = OFire :: k') /\ hooked s = false /\ cbrun s = 0%nat /\
                  choice_ok ch /\ (exists rq, rd s = Some rq /\ fire_ok rq f)
  | XWritten err => k = [] /\ hooked s = false /\ (0 < inflight (T s))%nat
  | XTimer err => k = [] /\ timer s = true /\ err <> CIO_OPERATION_ABORTED
  end.

(** cio_websocket_init, websocket.c 834-866.  Fields it does not initialise have
    arbitrary values: [r], [f], [l], [m], [b] (uninitialised memory). *)
Definition job0 (j : job) : job := Job (jnext j) None (jhandler j) (jtype j) (jlast j) false (jsh j).
Record junk := Junk { jk_fin : bool; jk_op : N; jk_rfl : N; jk_cp : N; jk_rmask : list N; jk_cmask : list N;
  jk_jobs : jname -> job; jk_last : option jname; jk_sh : stream_handler }.
(** A handler field that is never read before it is set. *)
Definition unset_close (j : job) : job :=
  Job (jnext j) (jwbh j) (match jhandler j with Some HPong => None | h => h end) (jtype j) (jlast j) (jcont j) (jsh j).
Definition ws_init (g : junk) : ws :=
  Ws (Rx (jk_fin g) (jk_op g) 0 (jk_rfl g) 0 (utf8_init (mk_utf8 (jk_cp g) 0)) (jk_rmask g))
     (Tx (fun n => match n with
                   | JMsg => set_wbh (jk_jobs g JMsg) None
                   | JClose => unset_close (job0 (jk_jobs g n))
                   | _ => job0 (jk_jobs g n) end)
         None (jk_last g) (jk_cmask g) true 0 (jk_sh g))
     false false false false false None 0 [] [].

(** Executions: any junk, any environment, any user.  [P] restricts what the
    user does (documented rules of conduct); [fun _ _ => True] is no restriction. *)
Inductive reach (P : conf -> act -> Prop) : conf -> Prop :=
| reach_init g : length (jk_rmask g) = 4%nat -> length (jk_cmask g) = 4%nat -> bytes_ok (jk_rmask g) -> bytes_ok (jk_cmask g) ->
    reach P (ws_init g, [])
| reach_step c x c' : reach P c -> enabled c x -> P c x -> step c x = Ret c' -> reach P c'.
End Code.
