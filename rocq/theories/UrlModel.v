(** Model of what the HTTP server does with the URL of a request, lib/src/http_server.c 458-556 (call_url_parts_callback, path_in_url,
    on_url) with 399-406 (data_callback) and 337-345 (handle_server_error), and of lib/src/http_location_handler.c.

    http_parser_parse_url is an oracle: it fails, or gives an offset and a length for each part the URL has.  Simplifications: the
    writing of a response is one event (C34), refused when one was written before (http_server.c 253-255; response_written and
    response_fired are one flag here); a callback gets the bytes it
    may read instead of a pointer and a length, and reading outside of the URL is undefined; the method and the parser settings
    (476-482, 498-499) are left to HttpModel. *)
From Verif Require Import Base RouteModel.

(** http_parser.h, enum http_parser_url_fields (UF_USERINFO has no callback), in the order of the calls in on_url. *)
Inductive part := Schema | Host | Port | Path | Query | Fragment.
Definition parts : list part := [Schema; Host; Port; Path; Query; Fragment].
Definition url := part -> option (nat * nat).

(** http_location_handler.h 90-171: the callbacks on_schema .. on_fragment and on_url, and those of the rest of a request. *)
Inductive cb := OnPart (p : part) | OnUrl.
Inductive later_cb := OnHeaderName | OnHeaderValue | OnHeadersComplete | OnBody | OnMessageComplete.
Record handler := Handler { on_part : part -> bool; on_url_set : bool; later : later_cb -> bool; has_free : bool }.
(** http_location_handler.c 34-49, cio_http_location_handler_init. *)
Definition handler_init : handler := Handler (fun _ => false) false (fun _ => false) false.
(** http_location_handler.c 51-69, cio_http_location_handler_no_callbacks. *)
Definition no_callbacks (h : handler) : bool :=
  if on_url_set h || later h OnHeadersComplete || later h OnMessageComplete || later h OnHeaderName || later h OnHeaderValue || later h OnBody ||
     on_part h Port || on_part h Host || on_part h Path || on_part h Query || on_part h Schema || on_part h Fragment
  then false else true.

(** http_location_handler.h 68-72. *)
Inductive cb_return := SkipBody | Success | Error.
Definition code (r : cb_return) : Z := match r with SkipBody => 1 | Success => 0 | Error => (-1) end%Z.
(** What the application does in a callback: what it returns, and whether it writes a response. *)
Record reaction := Reaction { ret : cb_return; responds : bool }.

Inductive ev := EvAlloc (location : nat) | EvCall (c : cb) (data : list N) | EvStatus (code : nat).
Record st := St { fired : bool; tr : list ev }.
Definition log (e : ev) (s : st) : st := St (fired s) (tr s ++ [e]).

(** The application: which handler a location's alloc_handler returns (None: NULL), and its callbacks, which may depend on
    everything that happened before. *)
Record application := App { alloc : nat -> option handler; react : list ev -> cb -> list N -> reaction }.

(** The bytes at an offset of the URL. *)
Definition slice (bytes : list N) (off len : nat) : outcome (list N) :=
  if Nat.leb (off + len) (length bytes) then Ret (firstn len (skipn off bytes)) else UB.
(** Calling the application. *)
Definition call (a : application) (c : cb) (data : list N) (s : st) : cb_return * st :=
  let r := react a (tr s) c data in (ret r, St (fired s || responds r) (tr s ++ [EvCall c data])).
(** http_server.c 399-406, data_callback. *)
Definition data_callback (a : application) (set : bool) (c : cb) (data : list N) (s : st) : cb_return * st :=
  if (negb (fired s) && set)%bool then call a c data s else (Success, s).
(** http_server.c 458-465, call_url_parts_callback. *)
Definition call_url_parts_callback (a : application) (bytes : list N) (u : url) (h : handler) (p : part) (s : st) : outcome (cb_return * st) :=
  match u p with
  | Some (off, len) => obind (slice bytes off len) (fun data => Ret (data_callback a (on_part h p) (OnPart p) data s))
  | None => Ret (Success, s)
  end.
(** http_server.c 521-549: the six calls, each followed by the check of its result. *)
Fixpoint url_parts (a : application) (bytes : list N) (u : url) (h : handler) (l : list part) (s : st) : outcome (cb_return * st) :=
  match l with
  | [] => Ret (Success, s)
  | p :: r =>
      obind (call_url_parts_callback a bytes u h p s) (fun x =>
        match fst x with Error => Ret (Error, snd x) | _ => url_parts a bytes u h r (snd x) end)
  end.
(** A response with an error status (337-345, 500), if none was written before. *)
Definition write_status (n : nat) (s : st) : st := if fired s then s else St true (tr s ++ [EvStatus n]).

(** http_server.c 472-556, on_url; [u]: the result of http_parser_parse_url; what is returned stops the parser if it is not 0. *)
Definition on_url (a : application) (srv : server) (bytes : list N) (u : option url) (s : st) : outcome (Z * st) :=
  match u with
  | None => Ret ((-1)%Z, s)
  | Some u =>
      match u Path with
      | None => Ret ((-1)%Z, s)
      | Some (off, len) =>
          obind (slice bytes off len) (fun target =>
          obind (find_location srv target) (fun found =>
          match found with
          | None => Ret (0%Z, write_status 404 s)
          | Some l =>
              match alloc a (ident l) with
              | None => Ret (0%Z, write_status 500 s)
              | Some h =>
                  let s := log (EvAlloc (ident l)) s in
                  if negb (has_free h) then Ret (0%Z, write_status 500 s)
                  else if no_callbacks h then Ret (0%Z, write_status 500 s)
                  else
                    obind (url_parts a bytes u h parts s) (fun x =>
                    match fst x with
                    | Error => Ret ((-1)%Z, snd x)
                    | _ =>
                        if (on_url_set h && negb (fired (snd x)))%bool
                        then let (r, s) := call a OnUrl bytes (snd x) in Ret (code r, s)
                        else Ret (0%Z, snd x)
                    end)
              end
          end))
      end
  end.
