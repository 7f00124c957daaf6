(** C41, C42, C49: theorems about sockets whose statements mention only the
    calls, what the kernel answers and what can be observed. *)
From Verif Require Import Base SocketModel SocketSpec SocketProofs SocketProps.
Local Open Scope nat_scope.

Definition is_eof (e : sev) : bool := match e with EvReadDone _ REof => true | _ => false end.

(** * What the socket remembers is what was observed *)
(** The close timeout is the one given to cio_socket_init, and the socket knows
    that the peer has closed exactly when a read handler was told so. *)
Definition memory (tmo : N) (s : sock) : Prop := timeout_ns s = tmo /\ peer_closed s = existsb is_eof (tr s).
Lemma eof_snoc t e : existsb is_eof (t ++ [e]) = existsb is_eof t || is_eof e.
Proof. rewrite existsb_app. cbn. rewrite orb_false_r. reflexivity. Qed.
Ltac me := match goal with M : memory _ ?s |- memory _ _ => destruct M as [M1 M2]; split; simp; [exact M1|]; rewrite ?eof_snoc; cbn [is_eof]; rewrite ?orb_false_r; exact M2 end.
Lemma mem_close tmo s k s' k' : memory tmo s -> close_socket s k = Ret (s', k') -> memory tmo s'.
Proof. intros M. unfold close_socket. destruct (alive s); [|discriminate]. cbn [negb]. intros [= <- _]. me. Qed.
Lemma mem_reset tmo s k s' k' : memory tmo s -> reset_connection s k = Ret (s', k') -> memory tmo s'.
Proof. intros M. unfold reset_connection. destruct (alive s); [|discriminate]. cbn [negb]. apply mem_close. me. Qed.
Lemma mem_cancel tmo s : memory tmo s -> memory tmo (cancel_timer s).
Proof. intros M. unfold cancel_timer. destruct (th s); [me|exact M]. Qed.
Lemma reach_memory tmo user c : reach tmo user c -> memory tmo (fst c).
Proof.
  induction 1 as [|[s k] x [s' k'] R M E U S]; [split; reflexivity|]. cbn [fst] in *.
  destruct x as [space ch|cn res ch|res ch|ch|r ctl|serr| | | |ch]; cbn [step] in S.
  - unfold stream_read in S. destruct (alive s); [|discriminate S]. cbn [negb] in S. destruct (c_ctl ch); injection S as <- _; me.
  - unfold stream_write in S. destruct (alive s); [|discriminate S]. cbn [negb] in S. destruct res as [n|e]; [|destruct (Z.eqb e EAGAIN); [destruct (c_ctl ch)|]]; injection S as <- _; me.
  - unfold socket_connect in S. destruct (alive s); [|discriminate S]. cbn [negb] in S. destruct res as [e|]; [destruct (Z.eqb e EINPROGRESS); [destruct (c_ctl ch)|]|]; injection S as <- _; me.
  - unfold socket_close in S. destruct (negb (alive s)); [discriminate S|].
    destruct (peer_closed (log EvClose s)); [eapply mem_close; [|exact S]; me|]. destruct (N.ltb 0 _); [|eapply mem_close; [|exact S]; me].
    unfold shutdown_socket in S. destruct (c_shutdown ch); [eapply mem_reset; [|exact S]; me|].
    destruct (c_settime ch); [eapply mem_reset; [|exact S]; me|]. destruct (c_quick ch).
    + unfold close_timeout_handler in S. eapply mem_reset; [|exact S]; me.
    + unfold shutdown_end in S. destruct (negb _); [discriminate S|]. destruct (c_ctl ch); [eapply mem_reset; [|exact S]; me|]. injection S as <- _. me.
  - destruct (negb (alive s)); [discriminate S|]. destruct (rd_cb s); [discriminate S| |].
    + unfold read_callback in S. destruct (rreq s) as [[id sp]|]; [|discriminate S].
      destruct ctl; [injection S as <- _; me|]. destruct r as [[|y l]|e].
      * injection S as <- _. destruct M as [M1 M2]. split; simp; [exact M1|]. rewrite eof_snoc. cbn. rewrite orb_true_r. reflexivity.
      * injection S as <- _; me.
      * destruct (Z.eqb e EAGAIN); injection S as <- _; me.
    + unfold read_until_close_callback, cancel_timer_and_reset_connection in S.
      destruct ctl; [eapply mem_reset; [|exact S]; apply mem_cancel; me|]. destruct r as [[|y l]|e]; [eapply mem_close; [|exact S]; apply mem_cancel; me|injection S as <- _; me|].
      destruct (Z.eqb e EAGAIN); [injection S as <- _; me|eapply mem_reset; [|exact S]; apply mem_cancel; me].
  - destruct (negb (alive s)); [discriminate S|]. simp. destruct (wr_cb s); [discriminate S| |];
    [unfold write_callback in S; simp; destruct (wreq s); [|discriminate S]|unfold connect_callback in S; simp; destruct (creq s); [|discriminate S]]; injection S as <- _; me.
  - injection S as <- _. me.
  - destruct (tk s); [injection S as <- _; assumption..|]. destruct (th s); [|discriminate S]. unfold close_timeout_handler in S. eapply mem_reset; [|exact S]. me.
  - destruct k as [|[]]; injection S as <- _; assumption.
  - destruct k as [|[]]; try (injection S as <- _; assumption). unfold shutdown_end in S. destruct (negb _); [discriminate S|]. destruct (c_ctl ch); [eapply mem_reset; [|exact S]; me|]. injection S as <- _. me.
Qed.

(** * C42 *)
(** How cio_socket_close proceeds: at once (hook called within the call) when a
    read handler has been told the end of stream or the close timeout given to
    cio_socket_init is 0; else the sending side is shut down, the close timer is
    started and the loop watches for the peer's end of stream (or the connection
    is reset if the kernel refuses one of these). *)
Theorem C42_close_call : forall tmo s k ch, reach tmo sane (s, k) -> app_runs k = true -> ~ In EvHook (tr s) -> c_quick ch = false ->
  exists s' k', enabled (s, k) (XClose ch) /\ step (s, k) (XClose ch) = Ret (s', k') /\
  if (existsb is_eof (tr s) || (tmo =? 0)%N)%bool
  then tr s' = tr s ++ [EvClose; EvTimerClosed; EvFdClosed; EvHook] /\ k' = OHook :: k
  else match c_shutdown ch, c_settime ch, c_ctl ch with
  | None, None, None => tr s' = tr s ++ [EvClose; EvShutdown] /\ k' = k /\ enabled (s', k) XTimerExpire /\ (forall r, enabled (s', []) (XReadable r None))
  | Some _, _, _ => tr s' = tr s ++ [EvClose; EvLinger; EvTimerClosed; EvFdClosed; EvHook] /\ k' = OHook :: k
  | _, _, _ => tr s' = tr s ++ [EvClose; EvShutdown; EvLinger; EvTimerClosed; EvFdClosed; EvHook] /\ k' = OHook :: k
  end.
Proof.
  intros tmo s k ch R A NH Q. destruct (close_call_state tmo s k ch R NH Q) as (s' & k' & S & P). exists s', k'. split; [exact A|]. split; [exact S|].
  destruct (reach_memory _ _ _ R) as [M1 M2]. cbn [fst] in *. rewrite M1, M2 in P.
  destruct (existsb is_eof (tr s) || (tmo =? 0)%N); [exact P|].
  destruct (c_shutdown ch) eqn:C1, (c_settime ch) eqn:C2, (c_ctl ch) eqn:C3; try exact P. destruct P as (P1 & P2 & P3 & P4 & P5). split; [exact P1|]. split; [exact P2|].
  split; [exact P3|]. intros r. cbn. rewrite P4, P5. split; [reflexivity|]. split; [|split; [reflexivity|destruct r; exact I]].
  assert (R' : reach tmo sane (s', k')). { eapply (reach_step _ _ _ (XClose ch)); [exact R|exact A|split; [exact NH|exact Q]|exact S]. }
  destruct (C42_closed_once _ _ _ R') as [(_ & _ & _ & L)|(t & T & _)]; [exact L|]. exfalso. rewrite P1 in T.
  change [EvClose; EvShutdown] with ([EvClose] ++ [EvShutdown]) in T. change [EvTimerClosed; EvFdClosed; EvHook] with ([EvTimerClosed; EvFdClosed] ++ [EvHook]) in T.
  rewrite !app_assoc in T. apply app_inj_tail in T. destruct T as [_ T]. discriminate T.
Qed.
Print Assumptions C42_close_call.

(** Closing with the conduct of C41 (no reads and writes after the close call). *)
Lemma until_close tmo c : reach tmo orderly c -> In EvClose (tr (fst c)) -> ~ In EvHook (tr (fst c)) -> rd_cb (fst c) = RUntilClose.
Proof.
  induction 1 as [|[s k] x [s' k'] R IH E U S]; [intros []|]. cbn [fst] in *. intros CL NH.
  assert (C : cinv s k) by (change (cinv (fst (s, k)) (snd (s, k))); eapply reach_cinv; [apply sane_of|exact R]).
  assert (NHK : forall s1 k1, close_socket s1 k1 = Ret (s', k') -> In EvHook (tr s')).
  { intros s1 k1. unfold close_socket. destruct (alive s1); [|discriminate]. cbn [negb]. intros [= <- _]. simp. rewrite !in_snoc. auto. }
  assert (NHR : forall s1 k1, reset_connection s1 k1 = Ret (s', k') -> In EvHook (tr s')).
  { intros s1 k1. unfold reset_connection. destruct (alive s1); [|discriminate]. cbn [negb]. apply NHK. }
  destruct U as [SA O]. destruct x as [space ch|cn res ch|res ch|ch|r ctl|serr| | | |ch]; cbn [step] in S; cbn in O.
  - destruct O as (_ & CT & _ & NC). unfold stream_read in S. destruct (alive s); [|discriminate S]. cbn [negb] in S. rewrite CT in S. injection S as <- _. simp. rewrite in_snoc in CL. destruct CL; [contradiction|discriminate].
  - destruct O as (_ & _ & _ & NC). unfold stream_write in S. destruct (alive s); [|discriminate S]. cbn [negb] in S. destruct res as [n|e]; [|destruct (Z.eqb e EAGAIN); [destruct (c_ctl ch)|]]; injection S as <- _; simp; rewrite !in_snoc in CL; repeat (destruct CL as [CL|CL]; try contradiction; try discriminate).
  - destruct O as (_ & _ & _ & NC). unfold socket_connect in S. destruct (alive s); [|discriminate S]. cbn [negb] in S. destruct res as [e|]; [destruct (Z.eqb e EINPROGRESS); [destruct (c_ctl ch)|]|]; injection S as <- _; simp; rewrite !in_snoc in CL; repeat (destruct CL as [CL|CL]; try contradiction; try discriminate).
  - destruct SA as [_ Q]. unfold socket_close in S. destruct (negb (alive s)); [discriminate S|].
    destruct (peer_closed (log EvClose s)); [exfalso; apply NH; eapply NHK; exact S|]. destruct (N.ltb 0 _); [|exfalso; apply NH; eapply NHK; exact S].
    unfold shutdown_socket in S. destruct (c_shutdown ch); [exfalso; apply NH; eapply NHR; exact S|].
    destruct (c_settime ch); [exfalso; apply NH; eapply NHR; exact S|]. rewrite Q in S.
    unfold shutdown_end in S. destruct (negb _); [discriminate S|]. destruct (c_ctl ch); [exfalso; apply NH; eapply NHR; exact S|]. injection S as <- _. reflexivity.
  - destruct (negb (alive s)); [discriminate S|]. destruct (rd_cb s) eqn:RC; [discriminate S| |].
    + unfold read_callback in S. destruct (rreq s) as [[id sp]|]; [|discriminate S].
      assert (exfalso : In EvClose (tr s) -> ~ In EvHook (tr s) -> False) by (intros X Y; specialize (IH X Y); discriminate IH).
      destruct ctl; [|destruct r as [[|y l]|e]; [| |destruct (Z.eqb e EAGAIN)]]; injection S as <- _; simp; rewrite ?in_snoc in *;
        exfalso; apply exfalso; try tauto; destruct CL as [CL|CL]; try discriminate CL; assumption.
    + unfold read_until_close_callback, cancel_timer_and_reset_connection in S.
      destruct ctl; [exfalso; apply NH; eapply NHR; exact S|]. destruct r as [[|y l]|e]; [exfalso; apply NH; eapply NHK; exact S|injection S as <- _; exact RC|].
      destruct (Z.eqb e EAGAIN); [injection S as <- _; exact RC|exfalso; apply NH; eapply NHR; exact S].
  - destruct (negb (alive s)); [discriminate S|]. simp. destruct (wr_cb s); [discriminate S| |];
    [unfold write_callback in S; simp; destruct (wreq s); [|discriminate S]|unfold connect_callback in S; simp; destruct (creq s); [|discriminate S]]; injection S as <- _; simp;
    rewrite in_snoc in *; apply IH; try tauto; destruct CL as [CL|CL]; try discriminate CL; assumption.
  - injection S as <- _. apply IH; assumption.
  - destruct (tk s); [injection S as <- _; apply IH; assumption..|]. destruct (th s); [|discriminate S]. unfold close_timeout_handler in S. exfalso; apply NH; eapply NHR; exact S.
  - destruct k as [|[]]; try contradiction; injection S as <- _; apply IH; assumption.
  - exfalso. destruct k as [|[]]; try contradiction. apply (c_stack _ _ C). left. reflexivity.
Qed.

(** A graceful close: when the loop reads the peer's end of stream while the
    socket is closing, the hook is called without resetting the connection. *)
Theorem C42_graceful_close : forall tmo s, reach tmo orderly (s, []) -> In EvClose (tr s) -> ~ In EvHook (tr s) ->
  exists s', step (s, []) (XReadable (KRead []) None) = Ret (s', [OHook]) /\ tr s' = tr s ++ [EvTimerClosed; EvFdClosed; EvHook].
Proof.
  intros tmo s R CL NH. pose proof (until_close _ _ R CL NH) as RC. pose proof (reach_cinv tmo orderly _ sane_of R) as C. cbn [fst snd] in *.
  pose proof (alive_of _ _ C NH) as AL. cbn [step]. rewrite AL, RC. cbn [negb]. unfold read_until_close_callback, close_socket, cancel_timer.
  simp. destruct (th s); simp; rewrite AL; cbn [negb]; eexists; (split; [reflexivity|]); simp; rewrite <- !app_assoc; reflexivity.
Qed.
Print Assumptions C42_graceful_close.
(** While closing an error other than EAGAIN resets the connection, at once. *)
Theorem C42_error_while_closing : forall tmo s e, reach tmo orderly (s, []) -> In EvClose (tr s) -> ~ In EvHook (tr s) -> e <> EAGAIN ->
  exists s', step (s, []) (XReadable (KErr e) None) = Ret (s', [OHook]) /\ tr s' = tr s ++ [EvLinger; EvTimerClosed; EvFdClosed; EvHook].
Proof.
  intros tmo s e R CL NH NE. pose proof (until_close _ _ R CL NH) as RC. pose proof (reach_cinv tmo orderly _ sane_of R) as C. cbn [fst snd] in *.
  pose proof (alive_of _ _ C NH) as AL. cbn [step]. rewrite AL, RC. cbn [negb]. unfold read_until_close_callback, cancel_timer_and_reset_connection, reset_connection, close_socket, cancel_timer.
  destruct (Z.eqb_spec e EAGAIN); [contradiction|]. simp. destruct (th s); simp; rewrite AL; cbn [negb]; simp; rewrite ?AL; cbn [negb]; eexists; (split; [reflexivity|]); simp; rewrite <- !app_assoc; reflexivity.
Qed.
Print Assumptions C42_error_while_closing.

Example closing_orderly : exists s, reach 1000 orderly (s, []) /\ In EvClose (tr s) /\ ~ In EvHook (tr s) /\ enabled (s, []) (XReadable (KRead []) None) /\ enabled (s, []) (XReadable (KErr 104%Z) None).
Proof. eexists. split; [apply (run_init _ _ graceful); [okr|vm_compute; reflexivity]|]. okr. Qed.
Example close_at_once : exists s k, reach 1000 sane (s, k) /\ app_runs k = true /\ ~ In EvHook (tr s) /\ existsb is_eof (tr s) = true.
Proof. do 2 eexists. split; [apply (run_init _ _ [XRead 10 ok_choice; XReadable (KRead []) None]); [okr|vm_compute; reflexivity]|]. okr. Qed.

(** * C41 *)
(** A waiting write is answered when the loop finds the descriptor writable, with
    the error pending on the socket. *)
Theorem C41_writable_answers : forall tmo s id serr, reach tmo orderly (s, []) -> wout (tr s) = Some id -> ~ In EvClose (tr s) ->
  enabled (s, []) (XWritable serr) /\
  exists s', step (s, []) (XWritable serr) = Ret (s', [OUser]) /\ tr s' = tr s ++ [EvWriteDone id (- serr)%Z 0].
Proof.
  intros tmo s id serr R O NC. pose proof (reach_cinv tmo orderly _ sane_of R) as C. pose proof (reach_rinv _ _ R) as [_ _ B _ RG]. cbn [fst snd] in *.
  assert (AL : alive s = true). { destruct (alive s) eqn:AL; [reflexivity|]. destruct (c_done _ _ C AL) as (_ & _ & t0 & T0 & CL & _). exfalso. apply NC. rewrite T0, in_app_iff. auto. }
  destruct (RG NC) as (_ & G & _). rewrite O in B. symmetry in B. destruct (G ltac:(congruence)) as [G1 G2]. destruct (c_open _ _ C AL) as (L & _).
  split; [cbn; auto|]. cbn [step]. rewrite AL. cbn [negb]. simp. rewrite G2. unfold write_callback. simp. rewrite B. eexists. split; reflexivity.
Qed.
Print Assumptions C41_writable_answers.
Theorem C41_connect_answers : forall tmo s id serr, reach tmo orderly (s, []) -> cout (tr s) = Some id -> ~ In EvClose (tr s) ->
  enabled (s, []) (XWritable serr) /\
  exists s', step (s, []) (XWritable serr) = Ret (s', [OUser]) /\ tr s' = tr s ++ [EvConnectDone id (- serr)%Z].
Proof.
  intros tmo s id serr R O NC. pose proof (reach_cinv tmo orderly _ sane_of R) as C. pose proof (reach_rinv _ _ R) as [_ _ _ B RG]. cbn [fst snd] in *.
  assert (AL : alive s = true). { destruct (alive s) eqn:AL; [reflexivity|]. destruct (c_done _ _ C AL) as (_ & _ & t0 & T0 & CL & _). exfalso. apply NC. rewrite T0, in_app_iff. auto. }
  destruct (RG NC) as (_ & _ & G). rewrite O in B. symmetry in B. destruct (G ltac:(congruence)) as [G1 G2]. destruct (c_open _ _ C AL) as (L & _).
  split; [cbn; auto|]. cbn [step]. rewrite AL. cbn [negb]. simp. rewrite G2. unfold connect_callback. simp. rewrite B. eexists. split; reflexivity.
Qed.
Print Assumptions C41_connect_answers.
Example waiting_write : exists s, reach 1000 orderly (s, []) /\ wout (tr s) = Some 0 /\ ~ In EvClose (tr s).
Proof. eexists. split; [apply (run_init _ _ [XWrite [[3%N]] (inr EAGAIN) ok_choice]); [okr|vm_compute; reflexivity]|]. okr. Qed.
Example waiting_connect : exists s, reach 1000 orderly (s, []) /\ cout (tr s) = Some 0 /\ ~ In EvClose (tr s).
Proof. eexists. split; [apply (run_init _ _ [XConnect (Some EINPROGRESS) ok_choice]); [okr|vm_compute; reflexivity]|]. okr. Qed.

(** What each call reports at once: a read is accepted or refused with the error
    of epoll_ctl; a write and a connect are answered within the call when the
    kernel accepts them, wait when it would block, and are refused with the
    kernel's error otherwise. *)
Theorem C41_read_call : forall tmo s k space ch, reach tmo sane (s, k) -> ~ In EvHook (tr s) ->
  exists s' id, step (s, k) (XRead space ch) = Ret (s', k) /\
  tr s' = tr s ++ [match c_ctl ch with None => EvRead id space | Some e => EvReadRefused id (- e)%Z end].
Proof.
  intros tmo s k space ch R NH. pose proof (reach_cinv tmo sane _ (fun _ _ H => H) R) as C. cbn [fst snd] in *. pose proof (alive_of _ _ C NH) as AL.
  cbn [step]. unfold stream_read. rewrite AL. cbn [negb]. destruct (c_ctl ch); do 2 eexists; (split; [reflexivity|]); reflexivity.
Qed.
Print Assumptions C41_read_call.
Theorem C41_write_call : forall tmo s k c res ch, reach tmo sane (s, k) -> ~ In EvHook (tr s) ->
  exists s' k' id, step (s, k) (XWrite c res ch) = Ret (s', k') /\
  match res with
  | inl n => k' = OUser :: k /\ tr s' = tr s ++ [EvWrite id c; EvSent (firstn (N.to_nat n) (concat c)); EvWriteDone id 0%Z n]
  | inr e => k' = k /\ tr s' = tr s ++ [if Z.eqb e EAGAIN then match c_ctl ch with None => EvWrite id c | Some e' => EvWriteRefused id (- e')%Z end else EvWriteRefused id (- e)%Z]
  end.
Proof.
  intros tmo s k c res ch R NH. pose proof (reach_cinv tmo sane _ (fun _ _ H => H) R) as C. cbn [fst snd] in *. pose proof (alive_of _ _ C NH) as AL.
  cbn [step]. unfold stream_write. rewrite AL. cbn [negb]. destruct res as [n|e].
  - do 3 eexists. split; [reflexivity|]. split; [reflexivity|]. simp. rewrite <- !app_assoc. reflexivity.
  - destruct (Z.eqb e EAGAIN); [destruct (c_ctl ch)|]; do 3 eexists; (split; [reflexivity|]); split; reflexivity.
Qed.
Print Assumptions C41_write_call.
Theorem C41_connect_call : forall tmo s k res ch, reach tmo sane (s, k) -> ~ In EvHook (tr s) ->
  exists s' k' id, step (s, k) (XConnect res ch) = Ret (s', k') /\
  match res with
  | None => k' = OUser :: k /\ tr s' = tr s ++ [EvConnect id; EvConnectDone id 0%Z]
  | Some e => k' = k /\ tr s' = tr s ++ [if Z.eqb e EINPROGRESS then match c_ctl ch with None => EvConnect id | Some e' => EvConnectRefused id (- e')%Z end else EvConnectRefused id (- e)%Z]
  end.
Proof.
  intros tmo s k res ch R NH. pose proof (reach_cinv tmo sane _ (fun _ _ H => H) R) as C. cbn [fst snd] in *. pose proof (alive_of _ _ C NH) as AL.
  cbn [step]. unfold socket_connect. rewrite AL. cbn [negb]. destruct res as [e|].
  - destruct (Z.eqb e EINPROGRESS); [destruct (c_ctl ch)|]; do 3 eexists; (split; [reflexivity|]); split; reflexivity.
  - do 3 eexists. split; [reflexivity|]. split; [reflexivity|]. simp. rewrite <- !app_assoc. reflexivity.
Qed.
Print Assumptions C41_connect_call.

(** A write that is waiting when the socket is closed gracefully may still be
    answered after the close call. *)
Theorem C41_write_answered_while_closing : exists s, reach 1000 orderly (s, [OUser]) /\ tr s = [EvWrite 0 [[1%N]]; EvClose; EvShutdown; EvWriteDone 0 0 0].
Proof. eexists. split; [apply (run_init _ _ [XWrite [[1%N]] (inr EAGAIN) ok_choice; XClose ok_choice; XWritable 0%Z]); [okr|vm_compute; reflexivity]|]. okr. Qed.
Print Assumptions C41_write_answered_while_closing.

(** * C49 *)
(** Data that arrives while the socket is closing ends the watch for the peer's
    end of stream; the close can then only end with the timeout, by a reset. *)
Theorem C49_data_while_closing : forall tmo s r, reach tmo orderly (s, []) -> In EvClose (tr s) -> ~ In EvHook (tr s) ->
  (r = KErr EAGAIN \/ exists b l, r = KRead (b :: l)) ->
  exists s', step (s, []) (XReadable r None) = Ret (s', []) /\ tr s' = tr s /\
  forall r' ctl, ~ enabled (s', []) (XReadable r' ctl).
Proof.
  intros tmo s r R CL NH D. pose proof (until_close _ _ R CL NH) as RC. pose proof (reach_cinv tmo orderly _ sane_of R) as C. cbn [fst snd] in *.
  pose proof (alive_of _ _ C NH) as AL. cbn [step]. rewrite AL, RC. cbn [negb]. unfold read_until_close_callback.
  exists (set_regs false (reg_out s) s). split; [destruct D as [-> | (b & l & ->)]; reflexivity|]. split; [reflexivity|].
  intros r' ctl. cbn. intros (_ & _ & X & _). discriminate.
Qed.
Print Assumptions C49_data_while_closing.
