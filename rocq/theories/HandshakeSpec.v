(** What the opening handshake is supposed to do (RFC 6455 sections 4.1, 4.2),
    stated without the code.  The requests are those of [HandshakeModel.line]:
    header lines with a name and a value. *)
From Verif Require Import Base Sha1Spec Base64Spec Text HandshakeModel.

(** ASCII case-insensitive equality of header names. *)
Definition to_lower (c : N) : N := if (65 <=? c)%N && (c <=? 90)%N then (c + 32)%N else c.
Definition same_name (a b : list N) : Prop := map to_lower a = map to_lower b.
Definition named (n : string) (l : line) : Prop := same_name (name l) (text n).

Definition key_line : line -> Prop := named "sec-websocket-key".
Definition version_line : line -> Prop := named "sec-websocket-version".
Definition protocol_line : line -> Prop := named "sec-websocket-protocol".

(** RFC 6455 4.2.2: base64(SHA-1(key ++ GUID)); [a] is the base64 text. *)
Definition accept_for (key a : list N) : Prop :=
  b64_decode a = Some (sha1 (key ++ text "258EAFA5-E914-47DA-95CA-C5AB0DC85B11")).

(** RFC 7230 token characters. *)
Definition tchar (c : N) : Prop :=
  In c (text "!#$%&'*+-.^_`|~") \/ (48 <= c <= 57)%N \/ (65 <= c <= 90)%N \/ (97 <= c <= 122)%N.
Definition token (l : list N) : Prop := l <> [] /\ Forall tchar l.

(** Comma separated lists with optional white space (RFC 7230 section 7). *)
Definition ws (c : N) : Prop := c = 32%N \/ c = 9%N.
Definition trimmed (piece t : list N) : Prop :=
  exists a b, piece = a ++ t ++ b /\ Forall ws a /\ Forall ws b /\
    (forall c r, t = c :: r -> ~ ws c) /\ (forall c r, t = r ++ [c] -> ~ ws c).
Fixpoint comma_join (l : list (list N)) : list N :=
  match l with
  | [] => []
  | [x] => x
  | x :: rest => x ++ [44%N] ++ comma_join rest
  end.
Definition offers (value : list N) (l : list (list N)) : Prop :=
  exists pieces, pieces <> [] /\ value = comma_join pieces /\ Forall (fun p => ~ In 44%N p) pieces /\ Forall2 trimmed pieces l.

(** [p] is the first supported element of the client's list, and nothing in front of it is malformed. *)
Definition picks (supported : list (list N)) (value p : list N) : Prop :=
  exists l before after, offers value l /\ l = before ++ p :: after /\
    token p /\ In p supported /\ (forall q, In q before -> token q /\ ~ In q supported).

(** The handshake request is acceptable. *)
Record acceptable (supported : option (list (list N))) (r : request_line) (ls : list line) : Prop := {
  ac_version : http_major r > 1 \/ (http_major r = 1 /\ http_minor r >= 1);
  ac_get : is_get r = true;
  ac_upgrade : upgrade r = true;
  ac_ws_version : exists l, In l ls /\ version_line l;
  ac_ws_version_13 : forall l, In l ls -> version_line l -> value l = text "13";
  ac_key : exists l, In l ls /\ key_line l;
  ac_key_24 : forall l, In l ls -> key_line l -> length (value l) = 24;
  ac_protocol : forall l, In l ls -> protocol_line l -> exists s p, supported = Some s /\ picks s (value l) p }.

(** [l] is the last line of its kind. *)
Definition last_such (P : line -> Prop) (ls : list line) (l : line) : Prop :=
  P l /\ exists before after, ls = before ++ l :: after /\ forall x, In x after -> ~ P x.

(** The header fields of the 101 answer (apart from those every response has). *)
Definition answer_headers (accept : list N) (protocol : option (list N)) : list N :=
  text "Upgrade: websocket" ++ CRLF ++ text "Sec-WebSocket-Accept: " ++ accept ++ CRLF ++
  match protocol with
  | None => []
  | Some p => text "Sec-Websocket-Protocol: " ++ p ++ CRLF
  end.
