(** C70: two endpoints of the library connected by a reliable byte stream.  What the application on one side wrote is compared
    with what the application on the other side got, without mention of frames on the wire, masks or lengths. *)
From Verif Require Import Base WsModel WsRecvSpec WsFrameSpec WsFrames.
Open Scope N_scope.

(** A message: binary?, and its bytes. *)
Definition message := (bool * list N)%type.

(** The complete messages among frames (FIN, opcode, payload): the first frame of a message gives its type (opcode 2 is binary), the
    following ones continue it, the one with FIN ends it.  Control frames (opcodes from 8) may come between them. *)
Fixpoint messages (cur : option message) (l : list item) : list message :=
  match l with
  | [] => []
  | (fin, op, p) :: r =>
      if 8 <=? op then messages cur r
      else let m := match cur with Some (bin, a) => (bin, a ++ p) | None => (op =? 2, p) end in
           if fin then m :: messages None r else messages (Some m) r
  end.
Definition written (l : list item) : list message := messages None l.

(** The complete messages among received payload. *)
Fixpoint collected (cur : list N) (l : list out) : list message :=
  match l with
  | [] => []
  | OutByte _ _ _ b :: r => collected (cur ++ [b]) r
  | OutEnd bin true _ :: r => (bin, cur) :: collected [] r
  | OutEnd _ false _ :: r => collected cur r
  | OutControl _ _ :: r => collected cur r
  end.
Definition received (l : list out) : list message := collected [] l.

(** Payloads of the control frames of one kind (8 close, 9 ping, 10 pong). *)
Definition controls (k : N) (l : list item) : list (list N) := flat_map (fun x : item => if snd (fst x) =? k then [snd x] else []) l.
Definition got_controls (k : N) (l : list out) : list (list N) := flat_map (fun o => match o with OutControl c p => if c =? k then [p] else [] | _ => [] end) l.

(** Application messages as the calls ask for them: every accepted call that writes a whole frame, oldest first. *)
Definition call_of (e : ev) : list (bool * bool * list N) :=
  match e with EvCall (AFirst _ _ p lastf bin) => [(lastf, bin, pbytes p)] | _ => [] end.
Fixpoint accepted_calls (t : list ev) : list (bool * bool * list N) :=
  match t with
  | EvAccept _ _ _ :: ((e :: _) as r) => accepted_calls r ++ call_of e
  | _ :: r => accepted_calls r
  | [] => []
  end.
(** Messages made of calls: the first call's type counts. *)
Fixpoint joined (cur : option message) (l : list (bool * bool * list N)) : list message :=
  match l with
  | [] => []
  | (fin, bin, p) :: r =>
      let m := match cur with Some (b, a) => (b, a ++ p) | None => (bin, p) end in
      if fin then m :: joined None r else joined (Some m) r
  end.
(** The complete messages the application wrote. *)
Definition sent_messages (t : list ev) : list message := joined None (accepted_calls t).
Definition ping_call_of (e : ev) : list (list N) := match e with EvCall (APing _ p) => [pbytes p] | _ => [] end.
Fixpoint sent_pings (t : list ev) : list (list N) :=
  match t with
  | EvAccept _ _ _ :: ((e :: _) as r) => sent_pings r ++ ping_call_of e
  | _ :: r => sent_pings r
  | [] => []
  end.
(** A close frame is among the frames asked for. *)
Definition closes (l : list item) : Prop := controls 8 l <> [].
(** What was written of the message that is not finished yet. *)
Fixpoint rest_of (cur : option message) (l : list (bool * bool * list N)) : option message :=
  match l with
  | [] => cur
  | (fin, bin, p) :: r =>
      let m := match cur with Some (b, a) => (b, a ++ p) | None => (bin, p) end in
      if fin then rest_of None r else rest_of (Some m) r
  end.
Definition sent_unfinished (t : list ev) : option message := rest_of None (accepted_calls t).
(** All texts the application wrote, complete or not. *)
Definition text_of (m : message) : list (list N) := if fst m then [] else [snd m].
Definition sent_texts (t : list ev) : list (list N) := flat_map text_of (sent_messages t).
Definition sent_partial_text (t : list ev) : list N := match sent_unfinished t with Some (false, a) => a | _ => [] end.
