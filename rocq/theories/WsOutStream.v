(** A websocket (lib/src/websocket.c) that writes through a buffered stream (lib/src/buffered_stream.c): [WsModel] says which chains are handed to
    cio_buffered_stream_write, [BufWriteModel] what becomes of one chain on the heap; here they run together, and the bytes the socket takes are collected. *)
From Verif Require Import Base WsModel WsOutSpec.
From Verif Require WriteBufferModel BufWriteModel BufWriteSpec.
Import BufWriteModel(wst, wh, phase, accepted, wphase, WFirst, WLater, WReported, WRejected, tev, TSync, TDone, w_run, w_enabled, w_step).
Open Scope N_scope.

(** One call of cio_buffered_stream_write: the caller's chain (head [r_B], elements [r_l]) in the heap [r_h] over the memory [r_mem], the two buffers of the
    stream, what the transport did so far and the state reached. *)
Record wrun := WRun { r_fuel : nat; r_mem : N -> N; r_h : WriteBufferModel.heap; r_B : N; r_W : N; r_T : N; r_l : list N; r_es : list tev; r_st : wst }.
Definition good_run (r : wrun) : Prop :=
  BufWriteSpec.write_pre (r_fuel r) (r_h r) (r_B r) (r_W r) (r_T r) (r_l r) /\
  w_run (r_fuel r) (r_mem r) (r_B r) (r_W r) (r_T r) (r_h r) (r_es r) (r_st r).
(** The chain denotes these bytes. *)
Definition run_data (r : wrun) : list N := BufWriteSpec.data_of (r_mem r) (r_h r) (r_l r).

(** Both halves; [pend] are the writes whose handler was not called yet, [wire] what the socket has taken. *)
Record wsys := WSys { wk : conf; pend : list wrun; wire : list N }.

(** What the stream did within a step of the websocket that calls cio_buffered_stream_write (websocket.c 117-175, buffered_stream.c 352-362): the
    write is still going on, its handler was called at once, or the call returned an error. *)
Definition outcome_ok (w : wres) (p : wphase) : Prop :=
  match w with
  | WPending => p = WFirst \/ p = WLater
  | WSync e => p = WReported e
  | WErr e => p = WRejected e
  end.
Definition choice_of (x : act) : choice := match x with XOp ch | XApi _ ch | XFire _ ch => ch | _ => Choice WPending [] 0 0 0 end.

Section S.
Variable C : cfg.
Variable P : conf -> act -> Prop.     (* rules for the application *)
Variable Q : wrun -> Prop.            (* rules for the transport *)

Inductive osreach : wsys -> Prop :=
| os_init g : length (jk_rmask g) = 4%nat -> length (jk_cmask g) = 4%nat -> bytes_ok (jk_rmask g) -> bytes_ok (jk_cmask g) -> osreach (WSys (ws_init g, []) [] [])
(** a step of the websocket that writes nothing *)
| os_quiet p x c' : osreach p -> (forall e, x <> XWritten e) -> enabled (wk p) x -> P (wk p) x -> step C (wk p) x = Ret c' ->
    sends (tr (fst c')) = sends (tr (fst (wk p))) -> osreach (WSys c' (pend p) (wire p))
(** one that hands a chain to the stream *)
| os_send p x c' n ch r : osreach p -> (forall e, x <> XWritten e) -> enabled (wk p) x -> P (wk p) x -> step C (wk p) x = Ret c' ->
    sends (tr (fst c')) = sends (tr (fst (wk p))) ++ [(n, ch)] ->
    good_run r -> Q r -> run_data r = chain_bytes ch -> outcome_ok (ch_write (choice_of x)) (phase (r_st r)) ->
    osreach (WSys c' (match ch_write (choice_of x) with WPending => pend p ++ [r] | _ => pend p end) (wire p ++ accepted (r_st r)))
(** the transport goes on with the write in progress *)
| os_wire p r rest x s' : osreach p -> pend p = r :: rest ->
    w_enabled (r_mem r) (r_B r) (r_W r) (r_st r) x -> w_step (r_fuel r) (r_mem r) (r_B r) (r_W r) (r_T r) (r_st r) x = Ret s' ->
    let r' := WRun (r_fuel r) (r_mem r) (r_h r) (r_B r) (r_W r) (r_T r) (r_l r) (r_es r ++ [x]) s' in
    Q r' -> osreach (WSys (wk p) (r' :: rest) (wire p ++ skipn (length (accepted (r_st r))) (accepted s')))
(** the write handler is called *)
| os_done p r rest e c' : osreach p -> pend p = r :: rest -> phase (r_st r) = WReported e ->
    enabled (wk p) (XWritten e) -> P (wk p) (XWritten e) -> step C (wk p) (XWritten e) = Ret c' -> osreach (WSys c' rest (wire p)).
End S.
