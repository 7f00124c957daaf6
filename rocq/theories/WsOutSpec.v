(** Vocabulary for the sending side: what a history says about writes, and the
    rules of conduct for applications. *)
From Verif Require Import Base WsModel WsTrace WsHistory.
Open Scope N_scope.

(** Histories are kept newest first; all lists here are oldest first. *)

(** An accepted write: kind, what was stored of it, declared length. *)
Definition ent := (jname * job * N)%type.
Definition ent_name (a : ent) : jname := fst (fst a).
Definition ent_job (a : ent) : job := snd (fst a).
Definition ent_len (a : ent) : N := snd a.
Definition payload (j : job) : list N := match jwbh j with Some c => chain_bytes c | None => [] end.

(** The application's messages and pings (its close requests are counted separately). *)
Definition mp (n : jname) : bool := match n with JMsg | JPing => true | _ => false end.
Definition usr (n : jname) (h : option handler) : list (jname * nat) := match h with Some (HUser id) => [(n, id)] | _ => [] end.

(** Accepted writes, chains handed to the stream, and calls of the application's write handlers. *)
Definition acc_of (e : ev) : list ent := match e with EvAccept n j l => [(n, j, l)] | _ => [] end.
Definition send_of (e : ev) : list (jname * chain) := match e with EvSend n c => [(n, c)] | _ => [] end.
Definition done_of (e : ev) : list (jname * nat) := match e with EvWriteDone n id _ _ => if mp n then [(n, id)] else [] | _ => [] end.
Definition accepts : list ev -> list ent := collect acc_of.
Definition sends : list ev -> list (jname * chain) := collect send_of.
Definition dones : list ev -> list (jname * nat) := collect done_of.
(** The handlers that accepted messages and pings name. *)
Definition ent_usr (a : ent) : list (jname * nat) := if mp (ent_name a) then usr (ent_name a) (jhandler (ent_job a)) else [].
Definition musers (l : list ent) : list (jname * nat) := flat_map ent_usr l.

(** The connection has failed or is being closed by the peer or by the library. *)
Definition over_ev (e : ev) : bool := match e with EvError _ _ | EvEof | EvHook => true | EvControl k _ => k =? 8 | _ => false end.
Definition over (t : list ev) : bool := existsb over_ev t.
(** The peer sent a close frame. *)
Definition peer_ev (e : ev) : bool := match e with EvControl k _ => k =? 8 | _ => false end.
Definition peer_closed (t : list ev) : bool := existsb peer_ev t.
(** A close frame was requested. *)
Definition close_ev (e : ev) : bool := match e with EvAccept JClose _ _ => true | _ => false end.
Definition close_asked (t : list ev) : bool := existsb close_ev t.
Definition of_msg (x : jname * nat) : bool := match fst x with JMsg => true | _ => false end.
(** No message chunk is waiting for its handler to be called. *)
Definition msg_idle (t : list ev) : Prop := filter of_msg (dones t) = filter of_msg (musers (accepts t)).

(** Rules for the application: it reads one message at a time; it calls nothing any more
    once the connection failed or was closed, and only reads after having asked for a close frame;
    it does not send unsolicited pongs; payloads are not NULL; it continues a message only
    when the previous chunk was written. *)
Definition proper (c : conf) (x : act) : Prop :=
  match x with
  | XApi a _ =>
      let t := tr (fst c) in
      over t = false /\
      match a with
      | ARead => may_read t = true
      | AFirst _ _ p _ _ | APing _ p => p <> None /\ close_asked t = false
      | ACont id p => id <> None /\ p <> None /\ close_asked t = false /\ msg_idle t
      | APong _ _ => False
      | AClose _ _ _ => close_asked t = false
      end
  | _ => True
  end.
Lemma proper_reads c x : proper c x -> one_read_at_a_time c x.
Proof. destruct x as [ch|a ch|f ch|e|e]; cbn; auto. destruct a; auto. intros [_ H]. exact H. Qed.
