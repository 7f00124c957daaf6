(** What the theorems about the HTTP connection assume of the environment and say
    about histories. *)
From Verif Require Import Base Text HttpModel HttpDec.

(** Histories in chronological order. *)
Definition history (c : config) : list ev := rev (tr (fst c)).

(** Bodies whose length fits the buffer of the server. *)
Definition fits (body : list (list N)) : Prop := (N.of_nat (List.length (concat body)) < 10 ^ 10)%N.

(** The environment under which releasing works:
    - accepting a connection yields a socket,
    - the peer does not send a request before the response to the previous one arrived
      (http_parser does not meet a second request in the bytes it was given),
    - alloc_handler returns a handler with a free function,
    - response bodies are smaller than 10^10 bytes,
    - a response_written callback does not close the client when it is called from
      the event loop,
    - the stream does not report the end of a write after it was closed. *)
Definition careful (c : config) (v : act) : Prop :=
  let '(s, k) := c in
  match v with
  | VStep ch =>
      match k with
      | OAccept :: _ => c_acc ch <> AccNull
      | OExec :: _ => match c_par ch with PUrl u => ph s = PhStart /\ u <> UNoHandler | _ => True end
      | OUser w :: _ =>
          match c_user ch with
          | UWrite _ body _ => fits body
          | UClose => match w with WWritten _ => parsing s <> 0 | _ => True end
          | _ => True
          end
      | _ => True
      end
  | VWritten _ => life s = Live
  | VUser (UWrite _ body _) => fits body
  | _ => True
  end.

(** RFC 7230: a response with the given extra header lines and body. *)
Definition status (c : code) : list N :=
  match c with
  | S101 => text "HTTP/1.1 101 Switching Protocols" | S200 => text "HTTP/1.1 200 OK" | S400 => text "HTTP/1.1 400 Bad Request"
  | S404 => text "HTTP/1.1 404 Not Found" | S408 => text "HTTP/1.1 408 Request Timeout" | S500 => text "HTTP/1.1 500 Internal Server Error"
  end.
(** What is said about the connection: upgraded, kept (for so many seconds), closed. *)
Definition connection (a : announce) (seconds : list N) : list N :=
  match a with
  | AUpgrade => text "Connection: Upgrade" ++ CRLF
  | AKeep => text "Keep-Alive: timeout=" ++ seconds ++ CRLF ++ text "Connection: keep-alive" ++ CRLF
  | AClose => text "Connection: close" ++ CRLF
  end.
Definition response (S : server) (c : code) (a : announce) (headers body : list N) (b : list N) : Prop :=
  exists digits seconds, decimal (N.of_nat (List.length body)) digits /\ decimal ((read_header_timeout_ns S / 1000000000) mod 2 ^ 32) seconds /\
    b = status c ++ CRLF ++ text "Server: cio http/" ++ version S ++ CRLF ++ headers ++
        text "Content-Length: " ++ digits ++ CRLF ++ connection a seconds ++ CRLF ++ body.

(** What the latest request whose headers have arrived wants: that the connection is kept
    (the default), and, if it is the current request, that the protocol is changed. *)
Definition wants_keep (h : list ev) : bool :=
  fold_left (fun b e => match e with EHeaders keep _ => keep | _ => b end) h true.
Definition wants_upgrade (h : list ev) : bool :=
  fold_left (fun b e => match e with EHeaders _ upgrade => upgrade | ERestart => false | _ => b end) h false.

(** [careful], and the handler skips the body of a request (CIO_HTTP_CB_SKIP_BODY) only if
    the request wants to change the protocol. *)
Definition guarded (c : config) (v : act) : Prop :=
  careful c v /\
  match v, snd c with
  | VStep ch, OUser WHeaders :: _ => c_user ch = UReturn CbSkip -> wants_upgrade (history c) = true
  | _, _ => True
  end.

(** The running code goes on until it returns to the event loop. *)
Inductive runs (S : server) (ok : config -> act -> Prop) : config -> config -> Prop :=
| runs_end : forall s, runs S ok (s, []) (s, [])
| runs_step : forall c ch c1 c2, enabled c (VStep ch) -> ok c (VStep ch) -> step S c (VStep ch) = Ret c1 -> runs S ok c1 c2 -> runs S ok c c2.

(** Timers can be armed and the stream does not refuse a response at once. *)
Definition reliable (c : config) (v : act) : Prop :=
  careful c v /\ match v with VStep ch => c_timer ch = true /\ c_wr ch <> WFail | _ => True end.
