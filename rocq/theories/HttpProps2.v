(** Concrete connections: the theorems about the HTTP server are not empty, and what is
    not true without their assumptions. *)
From Verif Require Import Base Text HttpModel HttpSpec HttpProofs HttpDec HttpSafe HttpSafe2 HttpKeep HttpPipe HttpProps.
Fixpoint final_ (stp : config -> act -> outcome config) (c : config) (l : list act) : outcome config :=
  match l with [] => Ret c | v :: l => match stp c v with Ret c => final_ stp c l | UB => UB end end.
Fixpoint ok_run_ (stp : config -> act -> outcome config) (ok : config -> act -> Prop) (c : config) (l : list act) : Prop :=
  match l with
  | [] => True
  | v :: r => enabled c v /\ ok c v /\ match stp c v with Ret c' => ok_run_ stp ok c' r | UB => False end
  end.
Definition final (S : server) := final_ (step S).
Definition ok_run (S : server) := ok_run_ (step S).
Lemma run_reach S ok l : forall c c', reach S ok c -> ok_run S ok c l -> final S c l = Ret c' -> reach S ok c'.
Proof.
  unfold ok_run, final. induction l as [|x l IH]; intros c c' R O F; cbn [final_ ok_run_] in *; [injection F as <-; exact R|].
  destruct O as (E & U & O). destruct (step S c x) as [c1|] eqn:Q; [|contradiction]. eapply IH; [|exact O|exact F]. eapply reach_step; eassumption.
Qed.
Ltac okr := vm_compute; repeat split; try tauto; try discriminate; try lia; try (intros H; repeat destruct H as [H|H]; discriminate H || contradiction).
Definition srv : server := Server (text "1.0") 10000000000.
(** Everything succeeds, writes end later. *)
Definition ch0 : choice := Choice true true WAsync false true false PEnd (UReturn CbSuccess) AccOk.
Definition go (n : nat) : list act := repeat (VStep ch0) n.
Definition par (p : pcb) : act := VStep (Choice true true WAsync false true false p (UReturn CbSuccess) AccOk).
Definition usr (u : uact) : act := VStep (Choice true true WAsync false true false PEnd u AccOk).
Definition wr (w : wres) : act := VStep (Choice true true w false true false PEnd (UReturn CbSuccess) AccOk).
Definition text_body := [text "hello"].
Definition line : list act := [VRead (ROk 20 false); VStep ch0].
(** The request line and the end of the headers arrive. *)
Definition request : list act := line ++ [par (PUrl UFound)] ++ go 6.
Definition headers (keep upgrade : bool) : list act := line ++ [par (PHeaders keep upgrade (Some 0%N))] ++ go 4.

(** What a history says about requests, responses and releasing, without the bytes. *)
Inductive note := NAlloc (h : nat) | NFree (h : nat) | NCall (w : where_) | NResponse (c : code) (a : announce) | NRefused | NWritten (ok : bool) | NError
  | NRead | NParse | NUrl | NHeaders (keep : bool) | NComplete | NRestart | NUserClose | NClose | NFreeClient | NFreeNull.
Definition brief (e : ev) : note :=
  match e with
  | EAlloc h => NAlloc h | EFreeHandler h => NFree h | ECall _ w => NCall w | EError => NError | EResponse c a _ => NResponse c a | ERefused => NRefused
  | EWritten ok => NWritten ok | ERead => NRead | EParse => NParse | EUrl => NUrl | EHeaders k _ => NHeaders k | EComplete => NComplete | ERestart => NRestart
  | EUserClose => NUserClose | EClose => NClose | EFreeClient => NFreeClient | EFreeNull => NFreeNull
  end.
Ltac at_run l := eexists; split; [apply (run_reach srv _ l init); [apply reach_init|okr|vm_compute; reflexivity]|].

(** A request answered with 200; the write ends later. *)
Definition served : list act := go 1 ++ request ++ headers true false ++ [par PMessage; usr (UWrite S200 text_body true)] ++ go 8.
Definition first_request : list note :=
  [NRead; NParse; NUrl; NAlloc 0; NCall WUrl; NRead; NParse; NHeaders true; NCall WHeaders; NComplete; NCall WMessage; NResponse S200 AKeep].
Example served_request : exists s, reach srv polite (s, []) /\ map brief (history (s, [])) = first_request /\ writing s = true /\ reading s = false.
Proof. at_run served. okr. Qed.

(** Its bytes. *)
Example served_bytes : exists s b, reach srv careful (s, []) /\ In (EResponse S200 AKeep b) (history (s, [])) /\
  b = text "HTTP/1.1 200 OK" ++ CRLF ++ text "Server: cio http/1.0" ++ CRLF ++ text "Content-Length: 5" ++ CRLF ++
      text "Keep-Alive: timeout=10" ++ CRLF ++ text "Connection: keep-alive" ++ CRLF ++ CRLF ++ text "hello".
Proof.
  eexists. eexists. split; [apply (run_reach srv _ served init); [apply reach_init|okr|vm_compute; reflexivity]|].
  split; [vm_compute; do 11 right; left; reflexivity|]. vm_compute. reflexivity.
Qed.

(** A second response is refused (here from an application that calls on its own). *)
Example second_refused : exists s, reach srv careful (s, [OWrite S404 [] false]) /\ life s = Live /\
  exists p b m, history (s, [OWrite S404 [] false]) = p ++ EResponse S200 AKeep b :: m /\ ~ In ERestart m.
Proof.
  at_run (served ++ [VUser (UWrite S404 [] false)]). split; [reflexivity|].
  eexists [_;_;_;_;_;_;_;_;_;_;_], _, []. split; [vm_compute; reflexivity|intros []].
Qed.

(** It is written, the next one is read and answered, the peer goes away. *)
Definition two_requests : list act := served ++ [VWritten true] ++ go 4 ++ request ++ headers true false ++ [par PMessage; usr (UWrite S200 text_body false)] ++ go 8 ++
  [VWritten true] ++ go 3 ++ [VRead (REof 0)] ++ go 4 ++ [VFree].
Example two_requests_served : exists s, reach srv polite (s, []) /\ life s = Gone /\
  map brief (history (s, [])) = first_request ++ [NWritten true; NCall (WWritten true); NFree 0; NRestart; NRead;
    NParse; NUrl; NAlloc 1; NCall WUrl; NRead; NParse; NHeaders true; NCall WHeaders; NComplete; NCall WMessage; NResponse S200 AKeep;
    NWritten true; NFree 1; NRestart; NRead; NParse; NClose; NFreeClient].
Proof. at_run two_requests. okr. Qed.
(** Announced and done. *)
Example keep_case : exists s, reach srv careful (s, [OWritten2 true true]) /\ life s = Live /\ exists p b r p1 p2,
  history (s, [OWritten2 true true]) = p ++ EResponse S200 AKeep b :: r /\ ~ In ERestart r /\ p = p1 ++ EHeaders true false :: p2 /\ ~ In ERestart p2.
Proof.
  at_run (served ++ [VWritten true] ++ go 2). split; [reflexivity|]. eexists [_;_;_;_;_;_;_;_;_;_;_], _, _, [_;_;_;_;_;_;_], _.
  split; [vm_compute; reflexivity|]. split; [okr|]. split; [vm_compute; reflexivity|okr].
Qed.
Definition closing : list act := go 1 ++ request ++ headers false false ++ [par PMessage; usr (UWrite S200 text_body false)] ++ go 8 ++ [VWritten true] ++ go 1.
Example close_case : exists s, reach srv careful (s, [OWritten2 true true]) /\ life s = Live /\ exists p b r p1 p2,
  history (s, [OWritten2 true true]) = p ++ EResponse S200 AClose b :: r /\ ~ In ERestart r /\ p = p1 ++ EHeaders false false :: p2 /\ ~ In ERestart p2.
Proof.
  at_run closing. split; [reflexivity|]. eexists [_;_;_;_;_;_;_;_;_;_;_], _, _, [_;_;_;_;_;_;_], _.
  split; [vm_compute; reflexivity|]. split; [okr|]. split; [vm_compute; reflexivity|okr].
Qed.
(** The application closes from within a callback. *)
Example user_closes : exists s, reach srv careful (s, []) /\
  map brief (history (s, [])) = [NRead; NParse; NUrl; NAlloc 0; NCall WUrl; NUserClose; NFree 0; NClose; NFreeClient].
Proof. at_run (go 1 ++ line ++ [par (PUrl UFound)] ++ go 1 ++ [usr UClose] ++ go 6 ++ [VFree]). okr. Qed.

(** *** What is not true *)

(** The peer may send several requests at once if their length is not declared, e.g. plain GET
    requests: from the second one on the server hands http_parser whatever has
    arrived (remaining_content_length stays at SIZE_MAX), so that the next request is
    parsed before the response to the previous one is written.  Here the
    response to request 3 is refused, and the handler of request 2 is lost. *)
Definition careless (c : config) (v : act) : Prop := careful c v \/ exists ch, v = VStep ch /\ c_par ch = PUrl UFound.
Definition no_length : list act := line ++ [par (PHeaders true false None)] ++ go 4 ++ [par PMessage; usr (UWrite S200 text_body false)].
Definition gets : list act := go 1 ++ request ++ no_length ++ go 8 ++ [VWritten true] ++ go 3 ++
  [VRead (ROk 99 false); VStep ch0; par (PUrl UFound)] ++ go 3 ++ [par (PHeaders true false None)] ++ go 4 ++ [par PMessage; usr (UWrite S200 text_body false)] ++ go 4 ++
  [par (PUrl UFound)] ++ go 6 ++ [VUser (UWrite S200 text_body false)] ++ go 1 ++ [VUser UClose] ++ go 1 ++ [VFree].
Ltac okl := vm_compute; repeat match goal with
  | |- _ /\ _ => split
  | |- _ \/ exists _, _ => first [left; solve [okr] | right; eexists; split; reflexivity]
  | |- _ \/ _ => solve [tauto]
  | |- _ => solve [okr]
  end.
Theorem C35_pipelined_gets_refuted : exists s, reach srv careless (s, []) /\
  map brief (history (s, [])) = [NRead; NParse; NUrl; NAlloc 0; NCall WUrl; NRead; NParse; NHeaders true; NCall WHeaders; NComplete; NCall WMessage; NResponse S200 AKeep;
    NWritten true; NFree 0; NRestart; NRead;
    NParse; NUrl; NAlloc 1; NCall WUrl; NHeaders true; NCall WHeaders; NComplete; NCall WMessage; NResponse S200 AKeep; NUrl; NAlloc 2;
    NRefused; NUserClose; NFree 2; NClose; NFreeClient].
Proof. eexists; split; [apply (run_reach srv _ gets init); [apply reach_init|okl|vm_compute; reflexivity]|]. vm_compute. reflexivity. Qed.
Theorem C36_pipelined_handler_leak_refuted : exists s, reach srv careless (s, []) /\
  In EFreeClient (history (s, [])) /\ In (EAlloc 1) (history (s, [])) /\ ~ In (EFreeHandler 1) (history (s, [])).
Proof. eexists; split; [apply (run_reach srv _ gets init); [apply reach_init|okl|vm_compute; reflexivity]|]. okr. Qed.

(** alloc_handler fails and the response to that is still being written when the next
    header arrives: on_header_field uses a handler that is not there. *)
Definition no_handler (c : config) (v : act) : Prop := careful c v \/ exists ch, v = VStep ch /\ c_par ch = PUrl UNoHandler.
Theorem C36_alloc_failure_refuted : exists c v, reach srv no_handler c /\ enabled c v /\ careful c v /\ step srv c v = UB.
Proof.
  eexists. exists (par PField). split; [eapply (run_reach srv _ (go 1 ++ line ++ [par (PUrl UNoHandler)] ++ go 8 ++ line) init); [apply reach_init|okl|vm_compute; reflexivity]|].
  okr.
Qed.

(** The application closes the client in its response_written callback. *)
Definition close_in_callback (c : config) (v : act) : Prop := careful c v \/ exists ch, v = VStep ch /\ c_user ch = UClose.
Theorem C36_close_in_written_callback_refuted : exists c v, reach srv close_in_callback c /\ enabled c v /\ careful c v /\ step srv c v = UB.
Proof.
  eexists. exists (VStep ch0). split; [eapply (run_reach srv _ (served ++ [VWritten true] ++ go 1 ++ [usr UClose] ++ go 3) init); [apply reach_init|okl|vm_compute; reflexivity]|].
  okr.
Qed.

(** The application closes the client while a response is being written and the stream
    reports the end of the write before it is completely closed. *)
Definition late (c : config) (v : act) : Prop := careful c v \/ exists ok, v = VWritten ok.
Theorem C36_write_ends_after_close_refuted : exists c v, reach srv late c /\ enabled c v /\ careful c v /\ step srv c v = UB.
Proof.
  eexists. exists (VStep ch0). split; [eapply (run_reach srv _ (served ++ [VUser UClose] ++ go 1 ++ [VWritten false]) init); [apply reach_init| |vm_compute; reflexivity]|].
  - vm_compute; repeat match goal with
    | |- _ /\ _ => split
    | |- _ \/ exists _, _ => first [left; solve [okr] | right; eexists; reflexivity]
    | |- _ => solve [okr] end.
  - okr.
Qed.

(** Accepting a connection fails: free_client is called for a client that does not exist. *)
Theorem C36_accept_failure_refuted : exists c, reach srv (fun _ _ => True) c /\ In EFreeNull (history c).
Proof.
  eexists. split; [eapply (run_reach srv _ [VStep (Choice true true WAsync false true false PEnd (UReturn CbSuccess) AccNull)] init); [apply reach_init|okr|vm_compute; reflexivity]|]. okr.
Qed.

(** An upgraded connection whose 101 response is written later: the server frees the handler
    and reads the bytes of the new protocol as HTTP requests. *)
Definition upgrade : list act := go 1 ++ request ++ line ++ [par (PHeaders true true (Some 0%N)); VStep ch0; usr (UWrite S101 [] false)] ++ go 4 ++ [par PMessage] ++ go 4.
Theorem C34_upgrade_refuted : exists s, reach srv careful (s, []) /\ reading s = true /\
  map brief (history (s, [])) = [NRead; NParse; NUrl; NAlloc 0; NCall WUrl; NRead; NParse; NHeaders true; NCall WHeaders; NResponse S101 AUpgrade; NComplete;
    NWritten true; NFree 0; NRestart; NRead].
Proof. at_run (upgrade ++ [VWritten true] ++ go 3). okr. Qed.

(** A response sent before the headers of the request have arrived, e.g. 404, says that the
    connection will be kept even if the request says that it will not. *)
Theorem C34_early_response_refuted : exists s, reach srv careful (s, []) /\ life s = Closing /\
  map brief (history (s, [])) = [NRead; NParse; NUrl; NResponse S404 AKeep; NRead; NParse; NHeaders false; NComplete; NClose].
Proof. at_run (go 1 ++ line ++ [par (PUrl UNotFound)] ++ go 6 ++ line ++ [par (PHeaders false false (Some 0%N))] ++ go 4 ++ [par PMessage] ++ go 5). okr. Qed.

(** A request with an Upgrade header that is answered as usual: the response says
    keep-alive but the server does not read any further. *)
Theorem C34_upgrade_request_refuted : exists s, reach srv careful (s, []) /\ life s = Live /\ reading s = false /\ writing s = false /\ st s = false /\
  map brief (history (s, [])) = [NRead; NParse; NUrl; NAlloc 0; NCall WUrl; NRead; NParse; NHeaders true; NCall WHeaders; NComplete; NCall WMessage; NResponse S200 AKeep; NWritten true].
Proof. at_run (go 1 ++ request ++ headers true true ++ [par PMessage; usr (UWrite S200 text_body false); wr (WSync true)] ++ go 9). okr. Qed.

(** Bodies of 10^11 bytes or more make the server read behind its buffer; one of 10^10 bytes gets
    a Content-Length line that is cut and ends with a NUL byte instead of CRLF. *)
Theorem C34_huge_body_refuted : forall S s k c body cb ch, life s = Live -> written s = false ->
  N.of_nat (length (concat body)) = (10 ^ 11)%N -> step S (s, OWrite c body cb :: k) (VStep ch) = UB.
Proof.
  intros S s k c body cb ch L W E. cbn [step exec]. unfold write_response. rewrite L, W, E.
  replace (content_length_header (10 ^ 11)) with (@UB (list N)) by (vm_compute; reflexivity). reflexivity.
Qed.
Theorem C34_big_body_refuted : content_length_header (10 ^ 10) = Ret (text "Content-Length: 10000000000" ++ [13; 0])%N.
Proof. vm_compute. reflexivity. Qed.

(** The timer for the response cannot be armed: the application is told that its response was
    accepted, but nothing is sent. *)
Theorem C34_timer_failure_refuted : exists s, reach srv careful (s, [OUser WMessage; OMessage2; OCbEnd false; OExec; OParsed false]) /\ err s = false /\ tbc s = true /\
  map brief (history (s, [])) = [NRead; NParse; NUrl; NAlloc 0; NCall WUrl; NRead; NParse; NHeaders true; NCall WHeaders; NComplete; NCall WMessage; NError].
Proof.
  at_run (go 1 ++ request ++ headers true false ++ [par PMessage; usr (UWrite S200 text_body false);
    VStep (Choice false true WAsync false true false PEnd (UReturn CbSuccess) AccOk)] ++ go 2). okr.
Qed.
