(** Specification of buffered reading, in terms of the observable history only
    (newest event first). *)
From Verif Require Import Base MemmemSpec BufReadModel.
Open Scope nat_scope.

(** All bytes the transport has stored, in order. *)
Fixpoint delivered (t : list ev) : list N :=
  match t with
  | [] => []
  | EvDeliver bs :: t' => delivered t' ++ bs
  | _ :: t' => delivered t'
  end.

(** Number of bytes the user has consumed. *)
Fixpoint consumed (t : list ev) : nat :=
  match t with
  | [] => 0
  | EvConsume n :: t' => consumed t' + n
  | _ :: t' => consumed t'
  end.

Definition called (id : nat) (t : list ev) : Prop := exists e n v, In (EvCall id e n v) t.
Definition requested (id : nat) (t : list ev) : Prop := exists j, In (EvRequest id j) t.

(** Is the request fulfilled by the unread bytes [v], and with which byte count? *)
Definition fulfils (j : rjob) (v : list N) (n : nat) : Prop :=
  match j with
  | JAtLeast k => n = k /\ k <= length v
  | JUntil d => exists i, first_occurrence v d i /\ n = i + length d
  | JAtMost k => 0 < length v /\ n = Nat.min (length v) k
  end.

(** The newest thing the transport did was to report [err]. *)
Definition transport_error (err : Z) (t : list ev) : Prop :=
  exists t', t = EvFail err :: t' \/ t = EvReadSome err :: t'.

(** The buffer of [size] bytes is full of unread bytes without the delimiter. *)
Definition too_long (size : nat) (j : rjob) (err : Z) (v : list N) : Prop :=
  exists d, j = JUntil d /\ err = MESSAGE_TOO_LONG /\ length v = size /\ forall i, ~ occurs_at v d i.

(** Legitimate handler call [EvCall id err n view] after history [t]. *)
Definition good_call (size : nat) (id : nat) (err : Z) (n : nat) (view : list N) (t : list ev) : Prop :=
  exists j, In (EvRequest id j) t /\ ~ called id t /\
    view = skipn (consumed t) (delivered t) /\ consumed t <= length (delivered t) /\
    (err = SUCCESS -> fulfils j view n /\ n <= length view) /\
    (err <> SUCCESS -> n = 0 /\ (transport_error err t \/ too_long size j err view)).

(** Every handler call of a history is legitimate; request numbers are not reused;
    requests are accepted if and only if they can fit. *)
Fixpoint good_history (size : nat) (t : list ev) : Prop :=
  match t with
  | [] => True
  | e :: t' =>
      match e with
      | EvCall id err n view => good_call size id err n view t'
      | EvRequest id j => ~ requested id t' /\ (forall k, j = JAtLeast k -> k <= size)
      | EvRefused j => exists k, j = JAtLeast k /\ size < k
      | _ => True
      end /\ good_history size t'
  end.

(** The user keeps at most one request outstanding. *)
Fixpoint one_at_a_time (t : list ev) : Prop :=
  match t with
  | [] => True
  | e :: t' =>
      match e with
      | EvRequest _ _ => forall id, requested id t' -> called id t'
      | _ => True
      end /\ one_at_a_time t'
  end.

(** The handler does not start a new read when it is called with
    MESSAGE_TOO_LONG or because read_some itself has just failed. *)
Definition no_reread_on_local_error (user : list ev -> list uact) : Prop :=
  forall id err n v t, err <> SUCCESS ->
    (err = MESSAGE_TOO_LONG \/ exists t', t = EvReadSome err :: t') ->
    forall j, ~ In (URead j) (user (EvCall id err n v :: t)).

(** No handler consumes more bytes than it is offered. *)
Fixpoint total_consume (l : list uact) : nat :=
  match l with
  | [] => 0
  | UConsume n :: l' => n + total_consume l'
  | _ :: l' => total_consume l'
  end.
Definition polite (user : list ev -> list uact) : Prop :=
  forall id err n v t, total_consume (user (EvCall id err n v :: t)) <= length v.

(** The trace left by a handler's own calls, one event per call and in the order
    of the calls ([new], like every history, has the newest event first). *)
Definition did_ev (a : uact) (e : ev) : Prop :=
  match a, e with
  | UConsume n, EvConsume n' => n = n'
  | URead j, EvRequest _ j' | URead j, EvRefused j' => j = j'
  | UClose, EvCloseCall => True
  | _, _ => False
  end.
Definition did (l : list uact) (new : list ev) : Prop := Forall2 did_ev l (rev new).
