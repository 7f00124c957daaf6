(** What a user expects of a server socket, in terms of observable events. *)
From Verif Require Import Base AcceptModel.

Definition count (p : aev -> bool) (t : list aev) : nat := length (filter p t).
Definition is_accepted i e := match e with EvAccepted j => Nat.eqb j i | _ => false end.
Definition is_passed i e := match e with EvPassed j => Nat.eqb j i | _ => false end.
Definition is_fd_closed i e := match e with EvFdClosed j => Nat.eqb j i | _ => false end.
Definition is_freed i e := match e with EvFreed j => Nat.eqb j i | _ => false end.
Definition is_hook e := match e with EvHook => true | _ => false end.
Definition is_error e := match e with EvError _ => true | _ => false end.
Definition any_accepted e := match e with EvAccepted _ => true | _ => false end.

(** Conduct: the server socket is not used any more once its close hook has been
    called. *)
Definition sane (c : config) (x : act) : Prop :=
  match x with XAccept _ _ _ | XClose => ~ In EvHook (tr (fst c)) | _ => True end.
(** Conduct: besides, it is not closed from within a handler that is told about
    an error while handing out a connection. *)
Definition careful (c : config) (x : act) : Prop :=
  sane c x /\ match x with XClose => ~ exists i, In (OInitFail i) (snd c) | _ => True end.
