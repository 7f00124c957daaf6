(** Model of lib/src/websocket_location_handler.c: the server side of the
    WebSocket opening handshake, driven by the header callbacks of the HTTP server. *)
From Verif Require Import Base RouteModel Sha1Model Base64Model Text.

(** Return values of the callbacks, http_location_handler.h 67-71. *)
Inductive cb_return : Type := CB_SUCCESS | CB_ERROR | CB_SKIP_BODY.

(** websocket_location_handler.c:52-57, [enum header_field]. *)
Inductive header_field : Type := H_UNKNOWN | H_KEY | H_VERSION | H_PROTOCOL.

(** The fields of [struct cio_websocket_location_handler] (websocket_location_handler.h
    46-74) the handshake uses.  [subprotocols] is [None] for a NULL pointer, otherwise
    the list of the C strings (number_subprotocols is its length).  The index
    [chosen_subprotocol] is an option, [None] for -1. *)
Record handler : Type := Handler {
  subprotocols : option (list (list N));
  current_header_field : header_field;
  subprotocol_requested : bool;
  ws_version_ok : bool;
  chosen_subprotocol : option nat;
  sec_websocket_key : list N;
  accept_value : list N }.

Definition set_field (h : handler) (f : header_field) : handler :=
  Handler (subprotocols h) f (subprotocol_requested h) (ws_version_ok h) (chosen_subprotocol h) (sec_websocket_key h) (accept_value h).
Definition set_requested (h : handler) : handler :=
  Handler (subprotocols h) (current_header_field h) true (ws_version_ok h) (chosen_subprotocol h) (sec_websocket_key h) (accept_value h).
Definition set_version_ok (h : handler) : handler :=
  Handler (subprotocols h) (current_header_field h) (subprotocol_requested h) true (chosen_subprotocol h) (sec_websocket_key h) (accept_value h).
Definition set_chosen (h : handler) (c : option nat) : handler :=
  Handler (subprotocols h) (current_header_field h) (subprotocol_requested h) (ws_version_ok h) c (sec_websocket_key h) (accept_value h).
Definition set_key (h : handler) (k : list N) : handler :=
  Handler (subprotocols h) (current_header_field h) (subprotocol_requested h) (ws_version_ok h) (chosen_subprotocol h) k (accept_value h).
Definition set_accept (h : handler) (a : list N) : handler :=
  Handler (subprotocols h) (current_header_field h) (subprotocol_requested h) (ws_version_ok h) (chosen_subprotocol h) (sec_websocket_key h) a.

(** websocket_location_handler.h 42-44. *)
Definition KEY_LENGTH : nat := 24.
Definition GUID_LENGTH : nat := 36.
Definition ACCEPT_LENGTH : nat := 30.

(** websocket_location_handler.c:402-433, [cio_websocket_location_handler_init]:
    the two arrays keep the bytes that happened to be in memory, except
    sec_websocket_key[0] (line 422).  NULL argument checks are not modelled. *)
Definition handler_init (protocols : option (list (list N))) (key_memory accept_memory : list N) : handler :=
  Handler protocols H_UNKNOWN false false None (0%N :: tl key_memory) accept_memory.

(** [memcpy] of [src] to [dst] at offset [at_]: outside of [dst] is undefined behaviour. *)
Definition memcpy (dst : list N) (at_ : nat) (src : list N) : outcome (list N) :=
  if Nat.leb (at_ + length src) (length dst)
  then Ret (firstn at_ dst ++ src ++ skipn (at_ + length src) dst) else UB.

(** websocket_location_handler.c:67-70. *)
Definition WS_GUID : list N := text "258EAFA5-E914-47DA-95CA-C5AB0DC85B11".

(** 65-79, [save_websocket_key]. *)
Definition save_websocket_key (h : handler) (value : list N) : outcome (handler * cb_return) :=
  if Nat.eqb (length value) KEY_LENGTH
  then obind (memcpy (sec_websocket_key h) 0 value) (fun k =>
       obind (memcpy k (length value) WS_GUID) (fun k => Ret (set_key h k, CB_SUCCESS)))
  else Ret (h, CB_ERROR).

(** 81-90, [check_websocket_version]. *)
Definition VERSION : list N := text "13".
Definition check_websocket_version (h : handler) (value : list N) : outcome (handler * cb_return) :=
  if Nat.eqb (length value) (length VERSION)
  then obind (memcmp_eq value VERSION (length value)) (fun same =>
       if same then Ret (set_version_ok h, CB_SUCCESS) else Ret (h, CB_ERROR))
  else Ret (h, CB_ERROR).

(** 92-104, [find_requested_sub_protocol]: loop over the supported protocols from index [i] on. *)
Fixpoint find_requested (i : nat) (protocols : list (list N)) (name : list N) (len : nat) : outcome (option nat) :=
  match protocols with
  | [] => Ret None
  | p :: rest =>
      if Nat.eqb (length p) len
      then obind (memcmp_eq p name len) (fun same => if same then Ret (Some i) else find_requested (S i) rest name len)
      else find_requested (S i) rest name len
  end.

Definition COMMA : N := 44%N.

(** 106-115, [find_delimiter]: offset of the first comma in the first [len] bytes. *)
Fixpoint find_delimiter (str : list N) (len : nat) {struct len} : outcome (option nat) :=
  match len with
  | O => Ret None
  | S len' => match str with
              | [] => UB
              | c :: rest => if (c =? COMMA)%N then Ret (Some 0)
                             else obind (find_delimiter rest len') (fun r => Ret (option_map S r))
              end
  end.

(** 117-124, [is_white_space]. *)
Definition is_white_space (c : N) : bool := (c =? 32)%N || (c =? 9)%N.

(** 126-135, [strip_leading_whitespace]: the offset of the first other character. *)
Fixpoint strip_leading (str : list N) (len : nat) {struct len} : outcome (option nat) :=
  match len with
  | O => Ret None
  | S len' => match str with
              | [] => UB
              | c :: rest => if is_white_space c then obind (strip_leading rest len') (fun r => Ret (option_map S r))
                             else Ret (Some 0)
              end
  end.

(** 137-144, [strip_trailing_whitespace]: for len = 0 it reads in front of the string. *)
Fixpoint strip_trailing (str : list N) (len : nat) : outcome nat :=
  match len with
  | O => UB
  | S len' => obind (byte_at str len') (fun c => if is_white_space c then strip_trailing str len' else Ret len)
  end.

(** 146-149, [is_visible_character]; bytes above 127 are negative [char]s there and not visible. *)
Definition is_visible (c : N) : bool := (33 <=? c)%N && (c <=? 126)%N.

(** 151-173, [is_delimiter]: the double quote, parentheses, slash, colon, semicolon, less, equals, greater,
    question mark, at sign, square brackets, backslash and braces. *)
Definition is_delimiter (c : N) : bool :=
  existsb (N.eqb c) [34; 40; 41; 47; 58; 59; 60; 61; 62; 63; 64; 91; 92; 93; 123; 125]%N.

(** 175-188, [has_illegal_characters] for the first [len] characters. *)
Fixpoint has_illegal (str : list N) (len : nat) {struct len} : outcome bool :=
  match len with
  | O => Ret false
  | S len' => match str with
              | [] => UB
              | c :: rest => if negb (is_visible c) then Ret true else if is_delimiter c then Ret true else has_illegal rest len'
              end
  end.

(** 59-63, [enum protocol_find_ret]; FOUND carries the chosen index. *)
Inductive find_ret : Type := P_FOUND (i : nat) | P_NOT_FOUND | P_ERROR.

(** 190-208, [handle_word]. *)
Definition handle_word (protocols : list (list N)) (str : list N) (len : nat) : outcome find_ret :=
  obind (strip_leading str len) (fun o =>
  match o with
  | None => Ret P_ERROR
  | Some off =>
      let start := skipn off str in
      obind (strip_trailing start (len - off)) (fun l =>
      obind (has_illegal start l) (fun bad =>
      if bad then Ret P_ERROR
      else obind (find_requested 0 protocols start l) (fun f =>
           match f with Some i => Ret (P_FOUND i) | None => Ret P_NOT_FOUND end)))
  end).

(** 210-241, [check_websocket_protocol].  The loop is bounded by [fuel] (the
    callers pass more than it can need; running out would be UB, which the
    proofs exclude). *)
Fixpoint protocol_loop (fuel : nat) (protocols : list (list N)) (start : list N) (len : nat) : outcome find_ret :=
  match fuel with
  | O => UB
  | S fuel' =>
      obind (find_delimiter start len) (fun e =>
      let word_len := match e with Some n => n | None => len end in
      obind (handle_word protocols start word_len) (fun r =>
      match r with
      | P_FOUND i => Ret (P_FOUND i)
      | P_ERROR => Ret P_ERROR
      | P_NOT_FOUND =>
          match e with
          | Some _ => protocol_loop fuel' protocols (skipn (1 + word_len) start) (len - 1 - word_len)
          | None => Ret P_ERROR
          end
      end))
  end.

Definition check_websocket_protocol (h : handler) (value : list N) : outcome (handler * cb_return) :=
  match subprotocols h with
  | None => Ret (h, CB_SUCCESS)
  | Some protocols =>
      obind (protocol_loop (S (length value)) protocols value (length value)) (fun r =>
      match r with
      | P_FOUND i => Ret (set_chosen h (Some i), CB_SUCCESS)
      | _ => Ret (h, CB_ERROR)
      end)
  end.

(** cio_strncasecmp, lib/src/platform/linux/string.c 41-44 (strncasecmp in the "C"
    locale): equality of the first [n] characters, ignoring case; it stops at the
    first difference or at a terminating NUL. *)
Definition lower (c : N) : N := if (65 <=? c)%N && (c <=? 90)%N then (c + 32)%N else c.
Fixpoint strncase_eq (a b : list N) (n : nat) {struct n} : outcome bool :=
  match n with
  | O => Ret true
  | S n' => match a, b with
            | x :: a', y :: b' =>
                if negb (lower x =? lower y)%N then Ret false
                else if (x =? 0)%N then Ret true else strncase_eq a' b' n'
            | _, _ => UB
            end
  end.

(** 243-260, [handle_field_name]. *)
Definition SEC_KEY : list N := text "Sec-WebSocket-Key".
Definition WS_VERSION : list N := text "Sec-WebSocket-Version".
Definition WS_PROTOCOL : list N := text "Sec-WebSocket-Protocol".
Definition is_name (name lit : list N) : outcome bool :=
  if Nat.eqb (length lit) (length name) then strncase_eq name lit (length name) else Ret false.

Definition handle_field_name (h : handler) (name : list N) : outcome (handler * cb_return) :=
  obind (is_name name SEC_KEY) (fun b =>
  if b then Ret (set_field h H_KEY, CB_SUCCESS)
  else obind (is_name name WS_VERSION) (fun b =>
  if b then Ret (set_field h H_VERSION, CB_SUCCESS)
  else obind (is_name name WS_PROTOCOL) (fun b =>
  if b then Ret (set_field h H_PROTOCOL, CB_SUCCESS)
  else Ret (h, CB_SUCCESS)))).

(** 262-292, [handle_field_value]. *)
Definition handle_field_value (h : handler) (value : list N) : outcome (handler * cb_return) :=
  obind (match current_header_field h with
         | H_KEY => save_websocket_key h value
         | H_VERSION => check_websocket_version h value
         | H_PROTOCOL => check_websocket_protocol (set_requested h) value
         | H_UNKNOWN => Ret (h, CB_SUCCESS)
         end) (fun '(h, ret) => Ret (set_field h H_UNKNOWN, ret)).

(** What the parser reports about the request line, and the upgrade flag. *)
Record request_line : Type := RequestLine { http_major : nat; http_minor : nat; is_get : bool; upgrade : bool }.

(** 294-305, [check_http_version]. *)
Definition check_http_version (r : request_line) : bool :=
  if Nat.ltb 1 (http_major r) then true
  else Nat.eqb (http_major r) 1 && Nat.leb 1 (http_minor r).

(** 325-336: the accept value; [stack] is the uninitialised block of the SHA-1 context. *)
Definition make_accept (h : handler) (stack : list N) : outcome handler :=
  obind (sha1_input (sha1_reset stack) (firstn (KEY_LENGTH + GUID_LENGTH) (sec_websocket_key h))) (fun '(c, _) =>
  obind (sha1_result c) (fun '(_, d) =>
  match d with
  | inr _ => UB                       (* sha1_buffer stays uninitialised *)
  | inl digest =>
      obind (b64_encode digest) (fun out =>
      obind (memcpy (accept_value h) 0 out) (fun a =>
      obind (memcpy a (ACCEPT_LENGTH - 2) [13%N]) (fun a =>
      obind (memcpy a (ACCEPT_LENGTH - 1) [10%N]) (fun a =>
      Ret (set_accept h a)))))
  end)).

(** 325-358, [send_upgrade_response]: the header elements handed to
    add_response_header, in order.  The call of write_response is the model's result
    [UPGRADE]. *)
Definition UPGRADE_HEADER : list N := text "Upgrade: websocket" ++ CRLF ++ text "Sec-WebSocket-Accept: ".
Definition PROTOCOL_FIELD : list N := text "Sec-Websocket-Protocol: ".
Definition send_upgrade_response (h : handler) (stack : list N) : outcome (handler * list (list N)) :=
  obind (make_accept h stack) (fun h =>
  match chosen_subprotocol h with
  | None => Ret (h, [UPGRADE_HEADER; accept_value h])
  | Some i =>
      match subprotocols h with
      | None => UB
      | Some l => match nth_error l i with
                  | None => UB
                  | Some p => Ret (h, [UPGRADE_HEADER; accept_value h; PROTOCOL_FIELD; p; CRLF])
                  end
      end
  end).

(** Verdict on a request: CB_ERROR makes the server answer 400 (http_parser stops,
    parse(), http_server.c 594-601), otherwise 101 with these headers. *)
Inductive verdict : Type := REFUSE | UPGRADE (headers : list (list N)).

(** 360-393, [handle_headers_complete]; a failing write_response is part of the
    server model, not of this one. *)
Definition handle_headers_complete (h : handler) (r : request_line) (stack : list N) : outcome verdict :=
  if negb (check_http_version r) then Ret REFUSE
  else if negb (is_get r) then Ret REFUSE
  else if negb (upgrade r) then Ret REFUSE
  else if subprotocol_requested h && match chosen_subprotocol h with None => true | Some _ => false end then Ret REFUSE
  else if negb (ws_version_ok h) then Ret REFUSE
  else obind (byte_at (sec_websocket_key h) 0) (fun c =>
       if (c =? 0)%N then Ret REFUSE
       else obind (send_upgrade_response h stack) (fun '(_, hs) => Ret (UPGRADE hs))).

(** A header line as http_parser reports it: the name, the value, and further
    pieces of the value if the client folded the line. *)
Record line : Type := Line { name : list N; value : list N; folded : list (list N) }.

Fixpoint values (h : handler) (l : list (list N)) : outcome (handler * cb_return) :=
  match l with
  | [] => Ret (h, CB_SUCCESS)
  | v :: rest => obind (handle_field_value h v) (fun '(h, r) =>
                 match r with CB_SUCCESS => values h rest | _ => Ret (h, r) end)
  end.

(** The callbacks for all header lines in order; an error stops the parser
    (http_server.c 394-404 and http_parser's handling of callback errors). *)
Fixpoint header_lines (h : handler) (l : list line) : outcome (handler * cb_return) :=
  match l with
  | [] => Ret (h, CB_SUCCESS)
  | x :: rest =>
      obind (handle_field_name h (name x)) (fun '(h, r) =>
      match r with
      | CB_SUCCESS =>
          obind (values h (value x :: folded x)) (fun '(h, r) =>
          match r with CB_SUCCESS => header_lines h rest | _ => Ret (h, r) end)
      | _ => Ret (h, r)
      end)
  end.

Definition handshake (h : handler) (r : request_line) (ls : list line) (stack : list N) : outcome verdict :=
  obind (header_lines h ls) (fun '(h, ret) =>
  match ret with CB_SUCCESS => handle_headers_complete h r stack | _ => Ret REFUSE end).
