(** Model of one client connection of the HTTP server, lib/src/http_server.c
    (lines 75-289, 336-724), with an arbitrary http_parser (restricted to the order
    in which it calls its callbacks), an arbitrary buffered stream, arbitrary
    timers and an arbitrary application.

    The call stack is explicit: a configuration is the client and the list of
    operations still to be executed, innermost first; calls into http_parser and
    into application callbacks are single operations during which the parser or
    the application chooses what it does next.

    Simplified: the write buffer chain response_wbh is the list of its elements (C08);
    http_parser's bytes are not modelled, only its callbacks; routing (find_location)
    is C33, here an arbitrary outcome; which callbacks a location handler has set
    is chosen per call; body sizes in a request are below 2^64-1. *)
From Verif Require Import Base Text.

(** The client's memory and its stream and timers: in use, closed but not yet
    released (the stream is shutting down), released. *)
Inductive lifetime := Live | Closing | Gone.
(** http_client.h 91, [finish_func]. *)
Inductive finish := FRequestLine | FHeaderLine | FBytes | FRestart.
(** How far http_parser is in the current message. *)
Inductive phase := PhStart | PhHead | PhBody | PhDone.
(** http_location_handler.h 67-71. *)
Inductive cbret := CbSuccess | CbError | CbSkip.
(** http_status_code.h 44-51. *)
Inductive code := S101 | S200 | S400 | S404 | S408 | S500.
(** What the Connection header of a response says. *)
Inductive announce := AKeep | AClose | AUpgrade.
(** Which application callback is running. *)
Inductive where_ := WUrlPart | WUrl | WField | WValue | WHeaders | WBody | WMessage | WWritten (ok : bool).

Inductive ev :=
| EAlloc (h : nat)                                  (* alloc_handler returned a location handler *)
| EFreeHandler (h : nat)                            (* its free function is called *)
| ECall (h : option nat) (w : where_)               (* an application callback is called *)
| EError                                            (* the server's on_error is called *)
| EResponse (c : code) (a : announce) (b : list N)  (* these bytes are handed to the stream *)
| ERefused                                          (* write_response returned an error *)
| EWritten (ok : bool)                              (* the stream reports the end of the write *)
| ERead                                             (* reading from the stream was started *)
| EParse                                            (* http_parser is given bytes *)
| EUrl                                              (* it reports a new request *)
| EHeaders (keep upgrade : bool)                    (* it reports the end of the headers *)
| EComplete                                         (* it reports the end of a request *)
| ERestart                                          (* the server turns to the next request *)
| EUserClose                                        (* the application calls close *)
| EClose                                            (* the server closes timers and stream *)
| EFreeClient                                       (* free_client is called for the client *)
| EFreeNull.                                        (* free_client is called without a client *)

(** struct cio_http_client and cio_http_client_private (http_client.h 70-103, 210-224) with
    tbc = to_be_closed, ka = should_keepalive, ci = close_immediately, fired =
    response_fired, written = response_written, completed = response_written_completed,
    reqc = request_complete, hnd = current_handler, hcb = parser_settings.on_header_field
    is set, ucb = response_written_cb is set, rt and st = request and response timer
    armed, upg = parser.upgrade, perr = the parser met an error, chain = response_wbh,
    ret and err = return value of the last callback and of the last library call.
    nh, bulk, chunked and tr are ghosts: number of handlers allocated, the bytes
    handed to the parser may reach beyond the current message, the server does
    not know where the body of the current message ends (no content length, or it
    did not get to note it), the history (latest first). *)
Set Primitive Projections.
Record client : Type := Client {
  life : lifetime;
  parsing : nat;
  tbc : bool;
  ka : bool;
  ci : bool;
  fired : bool;
  written : bool;
  completed : bool;
  reqc : bool;
  fin : finish;
  hnd : option nat;
  nh : nat;
  hcb : bool;
  ucb : bool;
  remaining : N;
  rt : bool;
  st : bool;
  reading : bool;
  writing : bool;
  ph : phase;
  bulk : bool;
  chunked : bool;
  upg : bool;
  perr : bool;
  chain : list (list N);
  ret : cbret;
  err : bool;
  tr : list ev }.
Unset Primitive Projections.

Definition set_life (v : lifetime) (s : client) : client := Client v (parsing s) (tbc s) (ka s) (ci s) (fired s) (written s) (completed s) (reqc s) (fin s) (hnd s) (nh s) (hcb s) (ucb s) (remaining s) (rt s) (st s) (reading s) (writing s) (ph s) (bulk s) (chunked s) (upg s) (perr s) (chain s) (ret s) (err s) (tr s).
Definition set_parsing (v : nat) (s : client) : client := Client (life s) v (tbc s) (ka s) (ci s) (fired s) (written s) (completed s) (reqc s) (fin s) (hnd s) (nh s) (hcb s) (ucb s) (remaining s) (rt s) (st s) (reading s) (writing s) (ph s) (bulk s) (chunked s) (upg s) (perr s) (chain s) (ret s) (err s) (tr s).
Definition set_tbc (v : bool) (s : client) : client := Client (life s) (parsing s) v (ka s) (ci s) (fired s) (written s) (completed s) (reqc s) (fin s) (hnd s) (nh s) (hcb s) (ucb s) (remaining s) (rt s) (st s) (reading s) (writing s) (ph s) (bulk s) (chunked s) (upg s) (perr s) (chain s) (ret s) (err s) (tr s).
Definition set_ka (v : bool) (s : client) : client := Client (life s) (parsing s) (tbc s) v (ci s) (fired s) (written s) (completed s) (reqc s) (fin s) (hnd s) (nh s) (hcb s) (ucb s) (remaining s) (rt s) (st s) (reading s) (writing s) (ph s) (bulk s) (chunked s) (upg s) (perr s) (chain s) (ret s) (err s) (tr s).
Definition set_ci (v : bool) (s : client) : client := Client (life s) (parsing s) (tbc s) (ka s) v (fired s) (written s) (completed s) (reqc s) (fin s) (hnd s) (nh s) (hcb s) (ucb s) (remaining s) (rt s) (st s) (reading s) (writing s) (ph s) (bulk s) (chunked s) (upg s) (perr s) (chain s) (ret s) (err s) (tr s).
Definition set_fired (v : bool) (s : client) : client := Client (life s) (parsing s) (tbc s) (ka s) (ci s) v (written s) (completed s) (reqc s) (fin s) (hnd s) (nh s) (hcb s) (ucb s) (remaining s) (rt s) (st s) (reading s) (writing s) (ph s) (bulk s) (chunked s) (upg s) (perr s) (chain s) (ret s) (err s) (tr s).
Definition set_written (v : bool) (s : client) : client := Client (life s) (parsing s) (tbc s) (ka s) (ci s) (fired s) v (completed s) (reqc s) (fin s) (hnd s) (nh s) (hcb s) (ucb s) (remaining s) (rt s) (st s) (reading s) (writing s) (ph s) (bulk s) (chunked s) (upg s) (perr s) (chain s) (ret s) (err s) (tr s).
Definition set_completed (v : bool) (s : client) : client := Client (life s) (parsing s) (tbc s) (ka s) (ci s) (fired s) (written s) v (reqc s) (fin s) (hnd s) (nh s) (hcb s) (ucb s) (remaining s) (rt s) (st s) (reading s) (writing s) (ph s) (bulk s) (chunked s) (upg s) (perr s) (chain s) (ret s) (err s) (tr s).
Definition set_reqc (v : bool) (s : client) : client := Client (life s) (parsing s) (tbc s) (ka s) (ci s) (fired s) (written s) (completed s) v (fin s) (hnd s) (nh s) (hcb s) (ucb s) (remaining s) (rt s) (st s) (reading s) (writing s) (ph s) (bulk s) (chunked s) (upg s) (perr s) (chain s) (ret s) (err s) (tr s).
Definition set_fin (v : finish) (s : client) : client := Client (life s) (parsing s) (tbc s) (ka s) (ci s) (fired s) (written s) (completed s) (reqc s) v (hnd s) (nh s) (hcb s) (ucb s) (remaining s) (rt s) (st s) (reading s) (writing s) (ph s) (bulk s) (chunked s) (upg s) (perr s) (chain s) (ret s) (err s) (tr s).
Definition set_hnd (v : option nat) (s : client) : client := Client (life s) (parsing s) (tbc s) (ka s) (ci s) (fired s) (written s) (completed s) (reqc s) (fin s) v (nh s) (hcb s) (ucb s) (remaining s) (rt s) (st s) (reading s) (writing s) (ph s) (bulk s) (chunked s) (upg s) (perr s) (chain s) (ret s) (err s) (tr s).
Definition set_nh (v : nat) (s : client) : client := Client (life s) (parsing s) (tbc s) (ka s) (ci s) (fired s) (written s) (completed s) (reqc s) (fin s) (hnd s) v (hcb s) (ucb s) (remaining s) (rt s) (st s) (reading s) (writing s) (ph s) (bulk s) (chunked s) (upg s) (perr s) (chain s) (ret s) (err s) (tr s).
Definition set_hcb (v : bool) (s : client) : client := Client (life s) (parsing s) (tbc s) (ka s) (ci s) (fired s) (written s) (completed s) (reqc s) (fin s) (hnd s) (nh s) v (ucb s) (remaining s) (rt s) (st s) (reading s) (writing s) (ph s) (bulk s) (chunked s) (upg s) (perr s) (chain s) (ret s) (err s) (tr s).
Definition set_ucb (v : bool) (s : client) : client := Client (life s) (parsing s) (tbc s) (ka s) (ci s) (fired s) (written s) (completed s) (reqc s) (fin s) (hnd s) (nh s) (hcb s) v (remaining s) (rt s) (st s) (reading s) (writing s) (ph s) (bulk s) (chunked s) (upg s) (perr s) (chain s) (ret s) (err s) (tr s).
Definition set_remaining (v : N) (s : client) : client := Client (life s) (parsing s) (tbc s) (ka s) (ci s) (fired s) (written s) (completed s) (reqc s) (fin s) (hnd s) (nh s) (hcb s) (ucb s) v (rt s) (st s) (reading s) (writing s) (ph s) (bulk s) (chunked s) (upg s) (perr s) (chain s) (ret s) (err s) (tr s).
Definition set_rt (v : bool) (s : client) : client := Client (life s) (parsing s) (tbc s) (ka s) (ci s) (fired s) (written s) (completed s) (reqc s) (fin s) (hnd s) (nh s) (hcb s) (ucb s) (remaining s) v (st s) (reading s) (writing s) (ph s) (bulk s) (chunked s) (upg s) (perr s) (chain s) (ret s) (err s) (tr s).
Definition set_st (v : bool) (s : client) : client := Client (life s) (parsing s) (tbc s) (ka s) (ci s) (fired s) (written s) (completed s) (reqc s) (fin s) (hnd s) (nh s) (hcb s) (ucb s) (remaining s) (rt s) v (reading s) (writing s) (ph s) (bulk s) (chunked s) (upg s) (perr s) (chain s) (ret s) (err s) (tr s).
Definition set_reading (v : bool) (s : client) : client := Client (life s) (parsing s) (tbc s) (ka s) (ci s) (fired s) (written s) (completed s) (reqc s) (fin s) (hnd s) (nh s) (hcb s) (ucb s) (remaining s) (rt s) (st s) v (writing s) (ph s) (bulk s) (chunked s) (upg s) (perr s) (chain s) (ret s) (err s) (tr s).
Definition set_writing (v : bool) (s : client) : client := Client (life s) (parsing s) (tbc s) (ka s) (ci s) (fired s) (written s) (completed s) (reqc s) (fin s) (hnd s) (nh s) (hcb s) (ucb s) (remaining s) (rt s) (st s) (reading s) v (ph s) (bulk s) (chunked s) (upg s) (perr s) (chain s) (ret s) (err s) (tr s).
Definition set_ph (v : phase) (s : client) : client := Client (life s) (parsing s) (tbc s) (ka s) (ci s) (fired s) (written s) (completed s) (reqc s) (fin s) (hnd s) (nh s) (hcb s) (ucb s) (remaining s) (rt s) (st s) (reading s) (writing s) v (bulk s) (chunked s) (upg s) (perr s) (chain s) (ret s) (err s) (tr s).
Definition set_bulk (v : bool) (s : client) : client := Client (life s) (parsing s) (tbc s) (ka s) (ci s) (fired s) (written s) (completed s) (reqc s) (fin s) (hnd s) (nh s) (hcb s) (ucb s) (remaining s) (rt s) (st s) (reading s) (writing s) (ph s) v (chunked s) (upg s) (perr s) (chain s) (ret s) (err s) (tr s).
Definition set_chunked (v : bool) (s : client) : client := Client (life s) (parsing s) (tbc s) (ka s) (ci s) (fired s) (written s) (completed s) (reqc s) (fin s) (hnd s) (nh s) (hcb s) (ucb s) (remaining s) (rt s) (st s) (reading s) (writing s) (ph s) (bulk s) v (upg s) (perr s) (chain s) (ret s) (err s) (tr s).
Definition set_upg (v : bool) (s : client) : client := Client (life s) (parsing s) (tbc s) (ka s) (ci s) (fired s) (written s) (completed s) (reqc s) (fin s) (hnd s) (nh s) (hcb s) (ucb s) (remaining s) (rt s) (st s) (reading s) (writing s) (ph s) (bulk s) (chunked s) v (perr s) (chain s) (ret s) (err s) (tr s).
Definition set_perr (v : bool) (s : client) : client := Client (life s) (parsing s) (tbc s) (ka s) (ci s) (fired s) (written s) (completed s) (reqc s) (fin s) (hnd s) (nh s) (hcb s) (ucb s) (remaining s) (rt s) (st s) (reading s) (writing s) (ph s) (bulk s) (chunked s) (upg s) v (chain s) (ret s) (err s) (tr s).
Definition set_chain (v : list (list N)) (s : client) : client := Client (life s) (parsing s) (tbc s) (ka s) (ci s) (fired s) (written s) (completed s) (reqc s) (fin s) (hnd s) (nh s) (hcb s) (ucb s) (remaining s) (rt s) (st s) (reading s) (writing s) (ph s) (bulk s) (chunked s) (upg s) (perr s) v (ret s) (err s) (tr s).
Definition set_ret (v : cbret) (s : client) : client := Client (life s) (parsing s) (tbc s) (ka s) (ci s) (fired s) (written s) (completed s) (reqc s) (fin s) (hnd s) (nh s) (hcb s) (ucb s) (remaining s) (rt s) (st s) (reading s) (writing s) (ph s) (bulk s) (chunked s) (upg s) (perr s) (chain s) v (err s) (tr s).
Definition set_err (v : bool) (s : client) : client := Client (life s) (parsing s) (tbc s) (ka s) (ci s) (fired s) (written s) (completed s) (reqc s) (fin s) (hnd s) (nh s) (hcb s) (ucb s) (remaining s) (rt s) (st s) (reading s) (writing s) (ph s) (bulk s) (chunked s) (upg s) (perr s) (chain s) (ret s) v (tr s).
Definition set_tr (v : list ev) (s : client) : client := Client (life s) (parsing s) (tbc s) (ka s) (ci s) (fired s) (written s) (completed s) (reqc s) (fin s) (hnd s) (nh s) (hcb s) (ucb s) (remaining s) (rt s) (st s) (reading s) (writing s) (ph s) (bulk s) (chunked s) (upg s) (perr s) (chain s) (ret s) (err s) v.

Definition log (e : ev) (s : client) : client := set_tr (e :: tr s) s.

(** Choices of the environment for one operation. *)
Inductive wres := WAsync | WSync (ok : bool) | WFail.
Inductive lookup := UBad | UNotFound | UNoHandler | UNoCallbacks | UFound.
Inductive pcb := PEnd | PError | PUrl (u : lookup) | PField | PValue
  | PHeaders (keep upgrade : bool) (content_length : option N) | PBody | PMessage.
Inductive uact := UWrite (c : code) (body : list (list N)) (cb : bool) | UHeader (b : list N) | UClose | UReturn (r : cbret).
Inductive acc := AccOk | AccNull | AccFail.
Record choice := Choice {
  c_timer : bool;     (* arming or cancelling a timer succeeds *)
  c_read : bool;      (* starting to read succeeds *)
  c_wr : wres;        (* the buffered stream's answer to a write *)
  c_free : bool;      (* closing the stream releases the client at once *)
  c_cb : bool;        (* the handler has the callback in question *)
  c_more : bool;      (* another part of the URL is present and has a callback *)
  c_par : pcb;        (* what http_parser does next *)
  c_user : uact;      (* what the application does next *)
  c_acc : acc }.

(** The bytes read: an error, the end of the stream or some bytes up to the delimiter
    (avail bytes are in the buffer; lf: a line feed without carriage return is among
    them, which http_parser takes for the end of a line). *)
Inductive rdres := RErr | REof (avail : N) | ROk (avail : N) (lf : bool).

Inductive op :=
| OAccept | OParse (r : rdres) | OExec | OParsed (eof : bool) | OCbEnd (headers : bool)
| OUrlParts | OUrlPart2 | OHeaders1 (content_length : option N) | OHeaders2 (content_length : option N) | OMessage2 | OSetRet (r : cbret)
| OUser (w : where_)
| OWrite (c : code) (body : list (list N)) (cb : bool) | ORetErr (b : bool) | OMarkIfErr | OCloseIfErr | OMark | OClose
| OSrvErr | OTimeout | OWritten (ok : bool) | OWritten2 (cancelled ok : bool) | ORestart | OFinish.

Definition config : Type := client * list op.

(** ** Texts *)

(** The server: CIO_VERSION and read_header_timeout_ns. *)
Record server := Server { version : list N; read_header_timeout_ns : N }.

(** %zu and %u of printf. *)
Fixpoint dec_loop (fuel : nat) (n : N) (acc : list N) : list N :=
  match fuel with
  | O => acc
  | S f => let acc := (48 + n mod 10)%N :: acc in
           if (n <? 10)%N then acc else dec_loop f (n / 10)%N acc
  end.
Definition dec (n : N) : list N := dec_loop (S (N.to_nat (N.log2 n))) n [].

(** http_server.c:195-211, [get_response_statusline]. *)
Definition statusline (S : server) (c : code) : list N :=
  text "HTTP/1.1" ++
  match c with
  | S101 => text " 101 Switching Protocols" | S200 => text " 200 OK" | S400 => text " 400 Bad Request"
  | S404 => text " 404 Not Found" | S408 => text " 408 Request Timeout" | S500 => text " 500 Internal Server Error"
  end ++ CRLF ++ text "Server: cio http/" ++ version S ++ CRLF.

(** http_server.c:758-762, keepalive_header (the value is a uint32_t). *)
Definition keepalive_header (S : server) : list N :=
  text "Keep-Alive: timeout=" ++ dec ((read_header_timeout_ns S / 1000000000) mod 2 ^ 32) ++ CRLF.

(** http_server.c:263-264: snprintf into the 30 bytes of content_length_buffer, told 29, and an
    element as long as the whole text: longer texts are cut after 28 characters
    and followed by the NUL, a byte of older content, and memory behind the buffer. *)
Definition content_length_header (n : N) : outcome (list N) :=
  let t := text "Content-Length: " ++ dec n ++ CRLF in
  if Nat.leb (length t) 28 then Ret t
  else if Nat.leb (length t) 29 then Ret (firstn 28 t ++ [0%N])
  else UB.

Definition is_error_code (c : code) : bool := match c with S400 | S408 | S500 => true | _ => false end.

(** http_server.c:218-238, [start_response_header]: the elements behind the user's headers and
    the content length. *)
Definition announcement (s : client) (c : code) : announce :=
  match c with S101 => AUpgrade | _ => if ka s && negb (ci s) then AKeep else AClose end.
Definition connection_header (S : server) (a : announce) : list (list N) :=
  match a with
  | AUpgrade => [text "Connection: Upgrade" ++ CRLF]
  | AKeep => [keepalive_header S; text "Connection: keep-alive" ++ CRLF]
  | AClose => [text "Connection: close" ++ CRLF]
  end.

(** ** Functions of http_server.c *)

(** 93-99, [free_handler]. *)
Definition free_handler (s : client) : client :=
  match hnd s with Some h => log (EFreeHandler h) (set_hnd None s) | None => s end.

(** 101-112 and 83-91, [close_client]: timers, handler, stream.  The stream may release the client
    at once (close hook, or close_bs when closing fails) or later.  On a client
    that is closed already this closes foreign descriptors: undefined.  A
    pending write stays known to the stream. *)
Definition close_client (ch : choice) (s : client) : outcome client :=
  match life s with
  | Live =>
      let s := log EClose (free_handler (set_st false (set_rt false s))) in
      let s := set_reading false s in
      if c_free ch then Ret (log EFreeClient (set_writing false (set_life Gone s)))
      else Ret (set_life Closing s)
  | _ => UB
  end.

(** 114-121, [mark_to_be_closed] (also the client's close function). *)
Definition mark (ch : choice) (s : client) : outcome client :=
  match life s with
  | Gone => UB
  | _ => if Nat.eqb (parsing s) 0 then close_client ch s else Ret (set_tbc true s)
  end.

(** 251-289, [write_response]. *)
Definition write_response (S : server) (c : code) (body : list (list N)) (cb : bool) (ch : choice) (s : client) (k : list op) : outcome config :=
  match life s with
  | Gone => UB
  | _ =>
    if written s then Ret (log ERefused (set_err true s), k)
    else
      let s := set_fired true (set_ucb cb s) in
      obind (content_length_header (N.of_nat (length (concat body)))) (fun cl =>
      let s := if is_error_code c then set_ci true s else s in
      match life s with
      | Live =>
        if c_timer ch then
          let a := announcement s c in
          let chain := statusline S c :: chain s ++ [cl] ++ connection_header S a ++ [CRLF] ++ body in
          let s := set_written true (set_chain chain (set_st true s)) in
          match c_wr ch with
          | WAsync => Ret (log (EResponse c a (concat chain)) (set_writing true (set_err false s)), k)
          | WSync ok => Ret (log (EResponse c a (concat chain)) s, OWritten ok :: ORetErr false :: k)
          | WFail => Ret (set_err true s, k)
          end
        else Ret (log EError s, OMark :: ORetErr false :: k)
      | _ => UB
      end)
  end.

(** Starting to read, e.g. 617-623. *)
Definition start_read (ch : choice) (s : client) (k : list op) : outcome config :=
  match life s with
  | Live => if c_read ch then Ret (log ERead (set_reading true s), k) else Ret (s, OSrvErr :: k)
  | _ => UB
  end.

(** 136-163, [restart_read_request].  Doing this while http_parser is running
    re-initialises it under its feet: undefined. *)
Definition restart (ch : choice) (s : client) (k : list op) : outcome config :=
  match life s with
  | Gone => UB
  | _ =>
    if reqc s && completed s then
      match life s with
      | Live =>
        if negb (Nat.eqb (parsing s) 0) then UB
        else
          let s := free_handler s in
          if c_timer ch then
            let s := set_rt true s in
            let s := set_chain [] (set_hcb false (set_ph PhStart (set_upg false (set_perr false s)))) in
            let s := set_fired false (set_reqc false (set_written false (set_completed false s))) in
            start_read ch (log ERestart (set_fin FRequestLine s)) k
          else Ret (s, OSrvErr :: k)
      | _ => UB
      end
    else Ret (s, k)
  end.

(** 165-193, [response_written], up to the application's callback and after it. *)
Definition response_written (ok : bool) (ch : choice) (s : client) (k : list op) : outcome config :=
  match life s with
  | Live =>
      let cancelled := st s && c_timer ch in
      let s := log (EWritten ok) (set_completed true (set_st (st s && negb cancelled) s)) in
      if ucb s
      then Ret (log (ECall (hnd s) (WWritten ok)) s, OUser (WWritten ok) :: OWritten2 cancelled ok :: k)
      else Ret (s, OWritten2 cancelled ok :: k)
  | _ => UB
  end.
Definition response_written2 (cancelled ok : bool) (ch : choice) (s : client) (k : list op) : outcome config :=
  match life s with
  | Gone => UB
  | _ =>
    if negb cancelled then Ret (s, OSrvErr :: k)
    else if negb ok then Ret (s, OSrvErr :: k)
    else if ci s || negb (ka s) then Ret (s, OMark :: k)
    else Ret (s, ORestart :: k)
  end.

(** A callback of the location handler in the middle of a request: needs the handler. *)
Definition call_handler (w : where_) (ch : choice) (s : client) (k : list op) : outcome config :=
  match hnd s with
  | None => UB
  | Some h => if c_cb ch then Ret (log (ECall (Some h) w) s, OUser w :: k) else Ret (set_ret CbSuccess s, k)
  end.

(** 472-556, [on_url].  UBad: http_parser_parse_url fails or there is no path (the return
    value -1 stops the parser, modelled directly).  UNoHandler: alloc_handler returns NULL or
    a handler without a free function. *)
Definition on_url (u : lookup) (s : client) (k : list op) : outcome config :=
  let s := log EUrl (set_ph PhHead (set_hcb true s)) in
  match u with
  | UBad => Ret (set_perr true s, OExec :: k)
  | UNotFound => Ret (set_hcb false s, OWrite S404 [] false :: OSetRet CbSuccess :: OCbEnd false :: OExec :: k)
  | UNoHandler => Ret (s, OSrvErr :: OSetRet CbSuccess :: OCbEnd false :: OExec :: k)
  | UNoCallbacks =>
      let s := log (EAlloc (nh s)) (set_nh (Datatypes.S (nh s)) (set_hnd (Some (nh s)) s)) in
      Ret (s, OSrvErr :: OSetRet CbSuccess :: OCbEnd false :: OExec :: k)
  | UFound =>
      let s := log (EAlloc (nh s)) (set_nh (Datatypes.S (nh s)) (set_hnd (Some (nh s)) s)) in
      Ret (s, OUrlParts :: OCbEnd false :: OExec :: k)
  end.

(** 514-555: the callbacks for the parts of the URL, then the one for the whole URL. *)
Definition url_parts (ch : choice) (s : client) (k : list op) : outcome config :=
  if fired s then Ret (set_ret CbSuccess s, k)
  else if c_more ch
  then match hnd s with
       | None => UB
       | Some h => Ret (log (ECall (Some h) WUrlPart) s, OUser WUrlPart :: OUrlPart2 :: k)
       end
  else call_handler WUrl ch s k.

(** 345-384, [on_headers_complete]: 345-352, then up to the handler's callback, then the rest. *)
Definition on_headers (keep upgrade : bool) (cl : option N) (s : client) (k : list op) : outcome config :=
  let s := log (EHeaders keep upgrade) (set_ka keep (set_upg upgrade (set_chunked true (set_ph PhBody s)))) in
  let k := OHeaders1 cl :: OCbEnd true :: OExec :: k in
  Ret (s, if negb keep && fired s then OMark :: k else k).
Definition on_headers1 (cl : option N) (ch : choice) (s : client) (k : list op) : outcome config :=
  if rt s && c_timer ch then
    let s := set_rt false s in
    if negb (fired s) then call_handler WHeaders ch s (OHeaders2 cl :: k)
    else Ret (set_ret CbSuccess s, OHeaders2 cl :: k)
  else Ret (s, OSrvErr :: OSetRet CbSuccess :: k).
Definition SIZE_MAX : N := 18446744073709551615.
Definition on_headers2 (cl : option N) (ch : choice) (s : client) (k : list op) : outcome config :=
  match ret s with
  | CbSuccess =>
      if c_timer ch then
        let s := set_rt true s in
        let n := match cl with Some n => n | None => SIZE_MAX end in
        let s := set_chunked (match cl with Some _ => false | None => true end) s in
        let s := if (0 <? n)%N then set_fin FBytes (set_remaining n s) else s in
        Ret (set_ret CbSuccess s, k)
      else Ret (s, OSrvErr :: OSetRet CbSuccess :: k)
  | _ => Ret (s, k)
  end.

(** 420-446, [on_message_complete], up to the handler's callback and after it. *)
Definition on_message (ch : choice) (s : client) (k : list op) : outcome config :=
  let s := log EComplete (set_ph PhDone s) in
  if negb (upg s) && negb (rt s && c_timer ch)
  then Ret (s, OSrvErr :: OSetRet CbSuccess :: OCbEnd false :: OExec :: k)
  else
    let s := if upg s then s else set_fin FRestart (set_rt false s) in
    if negb (fired s) then call_handler WMessage ch s (OMessage2 :: OCbEnd false :: OExec :: k)
    else Ret (set_ret CbSuccess s, OMessage2 :: OCbEnd false :: OExec :: k).
Definition on_message2 (s : client) (k : list op) : outcome config :=
  if negb (written s) then Ret (s, OSrvErr :: OSetRet CbSuccess :: k)
  else Ret (set_reqc true s, k).

(** http_parser_execute: the parser calls one callback after the other until it has used
    up its bytes (PEnd) or stops with an error. *)
Definition execute (ch : choice) (s : client) (k : list op) : outcome config :=
  if perr s then Ret (s, k)
  else match c_par ch with
  | PEnd => Ret (s, k)
  | PError => Ret (set_perr true s, k)
  | PUrl u => on_url u s k
  | PField => if hcb s                                                       (* 394-398 *)
              then match hnd s with
                   | None => UB
                   | Some _ => if fired s then Ret (set_ret CbSuccess s, OCbEnd false :: OExec :: k)
                               else call_handler WField ch s (OCbEnd false :: OExec :: k)
                   end
              else Ret (s, OExec :: k)
  | PValue => if hcb s                                                       (* 400-404 *)
              then match hnd s with
                   | None => UB
                   | Some _ => if fired s then Ret (set_ret CbSuccess s, OCbEnd false :: OExec :: k)
                               else call_handler WValue ch s (OCbEnd false :: OExec :: k)
                   end
              else Ret (s, OExec :: k)
  | PHeaders keep upgrade cl => on_headers keep upgrade cl s k
  | PBody => if fired s then Ret (set_ret CbSuccess s, OCbEnd false :: OExec :: k)    (* 448-456 *)
             else call_handler WBody ch s (OCbEnd false :: OExec :: k)
  | PMessage => on_message ch s k
  end.

(** 563-615, [parse], up to http_parser_execute and after it. *)
Definition parse (r : rdres) (s : client) (k : list op) : outcome config :=
  match life s with
  | Live =>
    match r with
    | RErr => Ret (s, OSrvErr :: k)
    | REof avail | ROk avail _ =>
        let eof := match r with REof _ => true | _ => false end in
        let counting := (0 <? remaining s)%N in
        let lf := match r with ROk _ lf => lf | _ => false end in
        let s := set_bulk (match ph s with PhBody => chunked s | _ => counting || lf end) s in
        let s := if counting then set_remaining (remaining s - N.min avail (remaining s))%N s else s in
        Ret (log EParse (set_parsing (Datatypes.S (parsing s)) s), OExec :: OParsed eof :: k)
    end
  | _ => UB
  end.
Definition parsed (eof : bool) (s : client) (k : list op) : outcome config :=
  match life s with
  | Gone => UB
  | _ =>
    let s := set_parsing (parsing s - 1) s in
    if eof then Ret (s, OClose :: k)
    else if perr s then Ret (s, OWrite S400 [] false :: OCloseIfErr :: k)
    else if tbc s then Ret (s, OClose :: k)
    else if upg s then Ret (s, k)
    else Ret (s, OFinish :: k)
  end.

(** 617-634 and 337-343, the functions finish_func points to. *)
Definition finish_func (ch : choice) (s : client) (k : list op) : outcome config :=
  match fin s with
  | FRequestLine => start_read ch (set_fin FHeaderLine s) k
  | FHeaderLine | FBytes => start_read ch s k
  | FRestart => Ret (s, ORestart :: k)
  end.

(** An application callback: any number of calls, then the return
    (http_client.h 66: response_written_cb returns nothing). *)
Definition returns_nothing (w : where_) : bool := match w with WWritten _ => true | _ => false end.
Definition user (S : server) (w : where_) (ch : choice) (s : client) (k : list op) : outcome config :=
  match c_user ch with
  | UReturn r => if returns_nothing w then Ret (s, k) else Ret (set_ret r s, k)
  | UWrite c body cb => Ret (s, OWrite c body cb :: OUser w :: k)
  | UHeader b => match life s with Gone => UB | _ => Ret (set_chain (chain s ++ [b]) s, OUser w :: k) end
  | UClose => Ret (log EUserClose s, OMark :: OUser w :: k)
  end.

(** 636-724, [handle_accept].  AccNull: accepting failed, there is no socket (line 641 yields NULL). AccFail:
    one of the initialisations fails. *)
Definition handle_accept (ch : choice) (s : client) (k : list op) : outcome config :=
  match c_acc ch with
  | AccOk => Ret (log ERead (set_reading true (set_rt true s)), k)
  | AccNull => Ret (log EFreeNull (log EError (set_life Gone s)), k)
  | AccFail => Ret (log EError s, OClose :: k)
  end.

Definition exec (S : server) (o : op) (ch : choice) (s : client) (k : list op) : outcome config :=
  match o with
  | OAccept => handle_accept ch s k
  | OParse r => parse r s k
  | OExec => execute ch s k
  | OParsed eof => parsed eof s k
  | OCbEnd h => match ret s with
                | CbSuccess => Ret (s, k)
                | CbSkip => if h then Ret (s, k) else Ret (set_perr true s, k)
                | CbError => Ret (set_perr true s, k)
                end
  | OUrlParts => url_parts ch s k
  | OUrlPart2 => match ret s with CbError => Ret (s, k) | _ => Ret (s, OUrlParts :: k) end
  | OHeaders1 cl => on_headers1 cl ch s k
  | OHeaders2 cl => on_headers2 cl ch s k
  | OMessage2 => on_message2 s k
  | OSetRet r => Ret (set_ret r s, k)
  | OUser w => user S w ch s k
  | OWrite c body cb => write_response S c body cb ch s k
  | ORetErr b => Ret (set_err b s, k)
  | OMarkIfErr => Ret (s, if err s then OMark :: k else k)
  | OCloseIfErr => Ret (s, if err s then OClose :: k else k)
  | OMark => obind (mark ch s) (fun s => Ret (s, k))
  | OClose => obind (close_client ch s) (fun s => Ret (s, k))
  | OSrvErr => match life s with                                             (* 336-343, handle_server_error *)
               | Gone => UB
               | _ => Ret (log EError s, OWrite S500 [] false :: OMarkIfErr :: k)
               end
  | OTimeout => Ret (s, OWrite S408 [] false :: OMarkIfErr :: k)             (* 123-134, client_timeout_handler *)
  | OWritten ok => response_written ok ch s k
  | OWritten2 c ok => response_written2 c ok ch s k
  | ORestart => restart ch s k
  | OFinish => finish_func ch s k
  end.

(** ** The machine *)
Inductive act :=
| VStep (ch : choice)         (* the running code goes on *)
| VRead (r : rdres)           (* the buffered stream answers the read *)
| VWritten (ok : bool)        (* the buffered stream reports the end of a pending write *)
| VRequestTimer | VResponseTimer
| VUser (u : uact)            (* the application calls a function of the client on its own *)
| VFree.                      (* the stream is closed completely: close hook, free_client *)

(** 650-672: the client right after accept, before its timers and its stream are set up. *)
Definition client0 : client :=
  Client Live 0 false true false false false false false FRequestLine None 0 false false 0 false false false false
    PhStart false false false false [] CbSuccess false [].
Definition init : config := (client0, [OAccept]).

(** http_parser reports the parts of a message in order; it goes on with the
    next message only if there can be bytes of it, i.e. if the server handed it more
    than the current message, and only on a persistent connection.  It reports the
    end of a message of known length when it got all of its bytes. *)
Definition parser_order (s : client) (p : pcb) : Prop :=
  match p with
  | PEnd => ph s = PhBody -> chunked s = true \/ bulk s = true \/ (0 < remaining s)%N
  | PError => True
  | PUrl _ => ph s = PhStart \/ (ph s = PhDone /\ bulk s = true /\ ka s = true /\ upg s = false)
  | PField | PValue | PHeaders _ _ _ => ph s = PhHead
  | PBody => ph s = PhBody
  | PMessage => ph s = PhBody /\ (chunked s = true \/ bulk s = true \/ remaining s = 0%N)
  end.

Definition enabled (c : config) (v : act) : Prop :=
  let '(s, k) := c in
  match v with
  | VStep ch => match k with [] => False | OExec :: _ => parser_order s (c_par ch) | _ => True end
  | VRead r => k = [] /\ life s = Live /\ reading s = true
  | VWritten _ => k = [] /\ life s <> Gone /\ writing s = true
  | VRequestTimer => k = [] /\ life s = Live /\ rt s = true
  | VResponseTimer => k = [] /\ life s = Live /\ st s = true
  | VUser u => k = [] /\ hnd s <> None /\ match u with UReturn _ => False | _ => True end
  | VFree => k = [] /\ life s = Closing
  end.

Definition step (S : server) (c : config) (v : act) : outcome config :=
  let '(s, k) := c in
  match v with
  | VStep ch => match k with [] => UB | o :: k => exec S o ch s k end
  | VRead r => Ret (set_reading false s, [OParse r])
  | VWritten ok => Ret (set_writing false s, [OWritten ok])
  | VRequestTimer => Ret (set_rt false s, [OTimeout])
  | VResponseTimer => Ret (set_st false s, [OTimeout])
  | VUser u =>
      match u with
      | UWrite c body cb => Ret (s, [OWrite c body cb])
      | UHeader b => match life s with Gone => UB | _ => Ret (set_chain (chain s ++ [b]) s, []) end
      | UClose => Ret (log EUserClose s, [OMark])
      | UReturn _ => Ret (s, [])
      end
  | VFree => Ret (log EFreeClient (set_writing false (set_life Gone s)), [])
  end.

(** Configurations reachable by steps that satisfy [ok]. *)
Inductive reach (S : server) (ok : config -> act -> Prop) : config -> Prop :=
| reach_init : reach S ok init
| reach_step : forall c v c', reach S ok c -> enabled c v -> ok c v -> step S c v = Ret c' -> reach S ok c'.
