(** The HTTP server (lib/src/http_server.c) writing through its buffered stream (lib/src/buffered_stream.c): [HttpModel] says which chains a client's
    connection hands to cio_buffered_stream_write, [BufWriteModel] what becomes of one chain on the heap; the bytes the socket takes are collected. *)
From Verif Require Import Base HttpModel HttpSpec.
From Verif Require WriteBufferModel BufWriteModel BufWriteSpec WsOutStream.
Import BufWriteModel(wst, wh, accepted, wphase, WFirst, WLater, WReported, WRejected, tev, TSync, TDone, w_run, w_enabled, w_step).
Import WsOutStream(wrun, WRun, good_run, run_data, r_fuel, r_mem, r_h, r_B, r_W, r_T, r_l, r_es, r_st).

(** The responses handed to the stream, oldest first. *)
Definition response_of (e : ev) : list (list N) := match e with EResponse _ _ b => [b] | _ => [] end.
Definition responses (h : list ev) : list (list N) := flat_map response_of h.

(** A connection, the write that is not reported yet, and what the socket has taken. *)
Record hsys := HSys { hk : config; hpend : option wrun; hwire : list N }.

(** The chain of a write has the elements of the response (http_server.c 251-289). *)
Definition run_chain (r : wrun) : list (list N) := map (BufWriteSpec.elem_bytes (r_mem r) (r_h r)) (r_l r).
(** What became of the write within the call (http_server.c 246-249, buffered_stream.c 352-362). *)
Definition within_call (w : wres) (p : wphase) : Prop :=
  match w with WAsync => p = WFirst \/ p = WLater | WSync ok => exists e, p = WReported e /\ ok = Z.eqb e 0 | WFail => False end.

Section S.
Variable S : server.
Variable P : config -> act -> Prop.   (* rules for the application, the peer and http_parser *)
Variable Q : wrun -> Prop.            (* rules for the socket *)

Inductive hreach : hsys -> Prop :=
| h_init : hreach (HSys init None [])
(** a step without a write that is accepted *)
| h_quiet p v c' : hreach p -> (forall ok, v <> VWritten ok) -> enabled (hk p) v -> P (hk p) v -> step S (hk p) v = Ret c' ->
    responses (history c') = responses (history (hk p)) -> hreach (HSys c' (hpend p) (hwire p))
(** a response is handed to the stream *)
| h_send p ch c' b r : hreach p -> enabled (hk p) (VStep ch) -> P (hk p) (VStep ch) -> step S (hk p) (VStep ch) = Ret c' ->
    responses (history c') = responses (history (hk p)) ++ [b] ->
    good_run r -> Q r -> run_chain r = chain (fst c') -> within_call (c_wr ch) (BufWriteModel.phase (r_st r)) ->
    hreach (HSys c' (match c_wr ch with WAsync => Some r | _ => hpend p end) (hwire p ++ accepted (r_st r)))
(** the socket goes on with the write in progress *)
| h_wire p r x s' : hreach p -> hpend p = Some r ->
    w_enabled (r_mem r) (r_B r) (r_W r) (r_st r) x -> w_step (r_fuel r) (r_mem r) (r_B r) (r_W r) (r_T r) (r_st r) x = Ret s' ->
    let r' := WRun (r_fuel r) (r_mem r) (r_h r) (r_B r) (r_W r) (r_T r) (r_l r) (r_es r ++ [x]) s' in
    Q r' -> hreach (HSys (hk p) (Some r') (hwire p ++ skipn (length (accepted (r_st r))) (accepted s')))
(** the end of the write is reported *)
| h_done p r e c' : hreach p -> hpend p = Some r -> BufWriteModel.phase (r_st r) = WReported e ->
    enabled (hk p) (VWritten (Z.eqb e 0)) -> P (hk p) (VWritten (Z.eqb e 0)) -> step S (hk p) (VWritten (Z.eqb e 0)) = Ret c' ->
    hreach (HSys c' None (hwire p)).
End S.
