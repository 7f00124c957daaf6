(** C72: histories of an application on Windows that creates, configures and destroys event loops and sockets, and what it can rely
    on. *)
From Verif Require Import Base WinSetup.
Open Scope Z_scope.

(** What the application calls. *)
Inductive act :=
| ANewLoop                                       (* cio_eventloop_init *)
| ADestroyLoop (p : nat)                         (* cio_eventloop_destroy *)
| ANewSocket (family : Z) (p : nat)              (* cio_socket_init *)
| ANewServer (family : Z) (p : nat) (junk : nat) (* cio_server_socket_init, with what the memory contained *)
| AClose (h : nat)                               (* cio_socket_close, cio_server_socket_close *)
| ANoDelay (h : nat) (on : bool)
| AKeepAlive (h : nat) (on : bool) (idle intvl cnt : Z)
| AReuse (h : nat) (on : bool)
| AFastOpen (h : nat) (on : bool)                (* cio_server_socket_set_tcp_fast_open *)
| ABind (h : nat)                                (* cio_server_socket_bind, cio_socket_connect *)
| AFamily (h : nat).                             (* cio_socket_get_address_family *)

(** What it sees: a result, and the handle of what was created. *)
Inductive seen := Result (err : Z) | Created (err : Z) (h : option nat) (hook : bool) | Nothing.
(** The history, newest first. *)
Definition history := list (act * seen).

Definition run1 (fate : nat -> option Z) (a : act) (k : kernel) : seen * kernel :=
  let res (r : Z * kernel) := (Result (fst r), snd r) in
  match a with
  | ANewLoop => let r := eventloop_init fate k in (Created (fst (fst r)) (snd (fst r)) false, snd r)
  | ADestroyLoop p => (Nothing, eventloop_destroy p k)
  | ANewSocket f p => let r := socket_init fate f p k in (Created (fst (fst r)) (snd (fst r)) false, snd r)
  | ANewServer f p j => let r := server_init fate f p j k in (Created (fst (fst (fst r))) (snd (fst (fst r))) (snd (fst r)), snd r)
  | AClose h => (Nothing, socket_close h k)
  | ANoDelay h on => res (set_tcp_no_delay fate h on k)
  | AKeepAlive h on i v c => res (set_keep_alive fate h on i v c k)
  | AReuse h on => res (server_set_reuse_address fate h on k)
  | AFastOpen h on => res (server_set_tcp_fast_open fate h on k)
  | ABind h => res (server_bind fate h k)
  | AFamily h => res (get_address_family fate h k)
  end.

(** What exists according to the history: loops, and sockets with family and loop. *)
Fixpoint loops (t : history) : list nat :=
  match t with
  | [] => []
  | (ANewLoop, Created _ (Some p) _) :: r => p :: loops r
  | (ADestroyLoop p, _) :: r => filter (fun q => negb (Nat.eqb q p)) (loops r)
  | _ :: r => loops r
  end.
Fixpoint sockets (t : history) : list (nat * (Z * nat)) :=
  match t with
  | [] => []
  | (ANewSocket f p, Created _ (Some h) _) :: r | (ANewServer f p _, Created _ (Some h) _) :: r => (h, (f, p)) :: sockets r
  | (AClose h, _) :: r => filter (fun x => negb (Nat.eqb (fst x) h)) (sockets r)
  | _ :: r => sockets r
  end.

(** The last setting of an option that succeeded, asked in the application's terms. *)
Fixpoint last_opt (o : opt) (h : nat) (t : history) : option bool :=
  match t with
  | [] => None
  | (a, Result 0) :: r =>
      match a, o with
      | ANoDelay h' on, ONoDelay | AReuse h' on, OReuse | AFastOpen h' on, OFastOpen => if Nat.eqb h' h then Some on else last_opt o h r
      | _, _ => last_opt o h r
      end
  | _ :: r => last_opt o h r
  end.
Fixpoint last_alive (h : nat) (t : history) : option (bool * Z * Z) :=
  match t with
  | [] => None
  | (AKeepAlive h' on i v _, Result 0) :: r => if Nat.eqb h' h then Some (on, i, v) else last_alive h r
  | _ :: r => last_alive h r
  end.
Fixpoint was_bound (h : nat) (t : history) : bool :=
  match t with
  | [] => false
  | (ABind h', Result 0) :: r => if Nat.eqb h' h then true else was_bound h r
  | _ :: r => was_bound h r
  end.

(** What the kernel has. *)
Fixpoint value (o : opt) (l : list (opt * Z)) : option Z :=
  match l with [] => None | (o', v) :: r => if opt_eqb o o' then Some v else value o r end.
Fixpoint lookup (h : nat) (l : list (nat * ksock)) : option ksock :=
  match l with [] => None | (n, s) :: r => if Nat.eqb n h then Some s else lookup h r end.
Definition number (b : bool) : Z := if b then 1 else 0.

(** Errors of Windows are positive. *)
Definition real (fate : nat -> option Z) : Prop := forall n e, fate n = Some e -> 0 < e.

(** What is asked of the application: it uses what exists, destroys a loop after its sockets, and hands in zeroed memory for server
    sockets. *)
Definition orderly (t : history) (a : act) : Prop :=
  match a with
  | ANewLoop => True
  | ADestroyLoop p => In p (loops t) /\ forall x, In x (sockets t) -> snd (snd x) <> p
  | ANewSocket _ p => In p (loops t)
  | ANewServer _ p junk => In p (loops t) /\ junk = 0%nat
  | AClose h | ANoDelay h _ | AKeepAlive h _ _ _ _ | AReuse h _ | AFastOpen h _ | ABind h | AFamily h => In h (map fst (sockets t))
  end.

(** The start of the process: nothing exists.  [errno] is whatever the C library left there. *)
Definition start (errno : Z) : kernel := Kernel 0 0 [] [] 0 0 errno 0.
Inductive reach (P : history -> act -> Prop) (fate : nat -> option Z) (errno : Z) : history -> kernel -> Prop :=
| reach_start : reach P fate errno [] (start errno)
| reach_act t k a s k' : reach P fate errno t k -> P t a -> run1 fate a k = (s, k') -> reach P fate errno ((a, s) :: t) k'.
