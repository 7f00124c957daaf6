(** What the application sees of the receiving side, and the rule for reading. *)
From Verif Require Import Base WsModel WsRecvSpec.
Open Scope N_scope.

(** The part of one event that is received payload, in the decoder's vocabulary. *)
Definition outs_of (e : ev) : list out :=
  match e with
  | EvData bin flen data last_chunk last_frame =>
      map (OutByte bin last_frame flen) data ++ (if last_chunk then [OutEnd bin last_frame flen] else [])
  | EvControl kind data => [OutControl kind data]
  | _ => []
  end.

(** Everything delivered so far (the history is newest first). *)
Fixpoint delivered (t : list ev) : list out :=
  match t with [] => [] | e :: r => delivered r ++ outs_of e end.

(** The application may call cio_websocket_read_message once at the start and
    then once for every call of its read handler with data. *)
Fixpoint may_read (t : list ev) : bool :=
  match t with
  | [] => true
  | EvCall ARead :: _ => false
  | EvData _ _ _ _ _ :: _ => true
  | _ :: r => may_read r
  end.

Definition one_read_at_a_time (c : conf) (x : act) : Prop :=
  match x with XApi ARead _ => may_read (tr (fst c)) = true | _ => True end.

(** The text messages among received payload: the complete ones, and what has
    arrived of the one in progress. *)
Fixpoint texts (cur : list N) (l : list out) : list (list N) * list N :=
  match l with
  | [] => ([], cur)
  | OutByte false _ _ b :: r => texts (cur ++ [b]) r
  | OutEnd false true _ :: r => let '(done, c) := texts [] r in (cur :: done, c)
  | _ :: r => texts cur r
  end.
Definition complete_texts (l : list out) : list (list N) := fst (texts [] l).
Definition current_text (l : list out) : list N := snd (texts [] l).
