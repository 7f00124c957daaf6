(** Model of lib/src/platform/linux/server_socket.c: listening, accepting and
    closing, with an arbitrary kernel and an arbitrary application.

    Not modelled: cio_server_socket_bind and the socket options (158-245).  The
    event loop always passes CIO_EPOLL_SUCCESS to a read callback (epoll.c 202),
    so lines 54-58 are not reached.  The initialisation of the client socket
    (socket.c 241-276) is a kernel choice: it succeeds or fails, and in case of
    failure leaves the descriptor open (socket.c 273-275). *)
From Verif Require Import Base.

Definition EAGAIN : Z := 11%Z.
Definition EBADF : Z := 9%Z.
Definition NO_MEMORY : Z := (-12)%Z.

(** Connections are numbered in the order in which the kernel hands them out. *)
Inductive aev :=
| EvListen (e : Z)                (* cio_server_socket_accept returned e *)
| EvAccepted (i : nat)            (* accept4 delivered a descriptor for connection i *)
| EvPassed (i : nat)              (* the handler is called with CIO_SUCCESS and the socket of connection i *)
| EvError (e : Z)                 (* the handler is called with an error and no socket *)
| EvFdClosed (i : nat)            (* close(client_fd) of connection i *)
| EvFreed (i : nat)               (* free_client for connection i *)
| EvClose                         (* cio_server_socket_close: removed from the loop, descriptor closed *)
| EvHook.                         (* the close hook is called: the server socket may be freed from here on *)

Record srv := mkA { alive : bool; in_loop : bool; reg_in : bool; handler : bool; next : nat; tr : list aev }.
Definition set_loop l r s := mkA (alive s) l r (handler s) (next s) (tr s).
Definition set_handler s := mkA (alive s) (in_loop s) (reg_in s) true (next s) (tr s).
Definition bump s := mkA (alive s) (in_loop s) (reg_in s) (handler s) (S (next s)) (tr s).
Definition log e s := mkA (alive s) (in_loop s) (reg_in s) (handler s) (next s) (tr s ++ [e]).
Definition dead s := mkA false (in_loop s) (reg_in s) (handler s) (next s) (tr s).

Inductive op :=
| OUser                (* the accept handler is running *)
| OHook                (* the close hook is running *)
| ONoMem (i : nat)     (* server_socket.c 74-75, after the handler returned *)
| OInitFail (i : nat). (* server_socket.c 83-84, after the handler returned *)
Definition config := (srv * list op)%type.

(** What happens when the loop calls accept_callback: accept4 fails, or delivers
    a descriptor and then alloc_client fails, or the client's initialisation
    fails, or all is well. *)
Inductive outcome_of_accept := AFail (errno : Z) | ANoMem | AInitFail (e : Z) | AOk.

(** server_socket.c 50-88. *)
Definition accept_callback (s : srv) (a : outcome_of_accept) (k : list op) : outcome config :=
  if negb (alive s) then UB
  else if negb (handler s) then UB
  else match a with
  | AFail e => if (Z.eqb e EAGAIN || Z.eqb e EBADF)%bool then Ret (s, k) else Ret (log (EvError (- e)%Z) s, OUser :: k)
  | ANoMem => Ret (log (EvError NO_MEMORY) (log (EvAccepted (next s)) (bump s)), OUser :: ONoMem (next s) :: k)
  | AOk => Ret (log (EvPassed (next s)) (log (EvAccepted (next s)) (bump s)), OUser :: k)
  | AInitFail e => Ret (log (EvError e) (log (EvAccepted (next s)) (bump s)), OUser :: OInitFail (next s) :: k)
  end.

(** server_socket.c 115-146; [lst], [add], [md]: errno of listen, of adding to
    the loop, and of registering for reading (None: success). *)
Definition server_accept (s : srv) (lst add md : option Z) (k : list op) : outcome config :=
  if negb (alive s) then UB
  else
    let s := set_handler s in
    match lst with
    | Some e => Ret (log (EvListen (- e)%Z) s, k)
    | None => match add with
      | Some e => Ret (log (EvListen (- e)%Z) (set_loop (in_loop s) false s), k)
      | None => match md with
        | Some e => Ret (log (EvListen (- e)%Z) (set_loop true true s), k)
        | None => Ret (log (EvListen 0%Z) (set_loop true true s), k)
        end
      end
    end.

(** server_socket.c 148-156. *)
Definition server_close (s : srv) (k : list op) : outcome config :=
  if negb (alive s) then UB
  else Ret (dead (log EvHook (log EvClose (set_loop false (reg_in s) s))), OHook :: k).

Inductive act :=
| XAccept (lst add md : option Z)
| XClose
| XReady (a : outcome_of_accept)
| XReturn
| XCont.

Definition app_runs (k : list op) : bool := match k with [] | OUser :: _ | OHook :: _ => true | _ => false end.
Definition enabled (c : config) (x : act) : Prop :=
  let '(s, k) := c in
  match x with
  | XAccept _ _ _ | XClose => app_runs k = true
  | XReady _ => k = [] /\ in_loop s = true /\ reg_in s = true
  | XReturn => match k with OUser :: _ | OHook :: _ => True | _ => False end
  | XCont => match k with ONoMem _ :: _ | OInitFail _ :: _ => True | _ => False end
  end.
Definition step (c : config) (x : act) : outcome config :=
  let '(s, k) := c in
  match x with
  | XAccept l a m => server_accept s l a m k
  | XClose => server_close s k
  | XReady a => accept_callback s a k
  | XReturn => match k with OUser :: r | OHook :: r => Ret (s, r) | _ => Ret c end
  | XCont => match k with
    | ONoMem i :: r => Ret (log (EvFdClosed i) s, r)                     (* server_socket.c 74: client_fd is a local variable *)
    | OInitFail i :: r => if negb (alive s) then UB                      (* server_socket.c 84: server_socket->free_client *)
        else Ret (log (EvFreed i) (log (EvFdClosed i) s), r)
    | _ => Ret c
    end
  end.

(** server_socket.c 90-113 in the case of success. *)
Definition server_init : config := (mkA true false false false 0 [], []).
Inductive reach (user : config -> act -> Prop) : config -> Prop :=
| reach_init : reach user server_init
| reach_step c x c' : reach user c -> enabled c x -> user c x -> step c x = Ret c' -> reach user c'.
Definition anyone (c : config) (x : act) : Prop := True.
