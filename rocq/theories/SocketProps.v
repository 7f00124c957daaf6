(** C41, C42, C49: the theorems about sockets. *)
From Verif Require Import Base SocketModel SocketSpec SocketProofs.
Local Open Scope nat_scope.

(** Running a schedule; used for the examples and the refutations. *)
Fixpoint final (c : config) (l : list act) : outcome config :=
  match l with [] => Ret c | x :: r => match step c x with Ret c' => final c' r | UB => UB end end.
Fixpoint ok_run (user : config -> act -> Prop) (c : config) (l : list act) : Prop :=
  match l with
  | [] => True
  | x :: r => enabled c x /\ user c x /\ match step c x with Ret c' => ok_run user c' r | UB => False end
  end.
Lemma run_reach tmo user l : forall c c', reach tmo user c -> ok_run user c l -> final c l = Ret c' -> reach tmo user c'.
Proof.
  induction l as [|x l IH]; intros c c' R O F; cbn in *; [injection F as <-; exact R|].
  destruct O as (E & U & O). destruct (step c x) as [c1|] eqn:S; [|contradiction]. eapply IH; [|exact O|exact F]. eapply reach_step; eassumption.
Qed.
Lemma run_init tmo user l c' : ok_run user (socket_init tmo) l -> final (socket_init tmo) l = Ret c' -> reach tmo user c'.
Proof. apply run_reach. apply reach_init. Qed.
Ltac okr := vm_compute; repeat split; try tauto; try discriminate; try lia; try (intros H; repeat destruct H as [H|H]; discriminate H || contradiction).

(** * C42 *)
(** Used as intended, neither closing nor anything else touches freed memory or
    calls a NULL handler, whatever the kernel answers. *)
Theorem C42_no_undefined_behaviour : forall tmo c x, reach tmo sane c -> enabled c x -> sane c x -> step c x <> UB.
Proof.
  intros tmo [s k] x R E U. destruct (step_cinv s k x (reach_cinv tmo sane _ (fun _ _ H => H) R) E U) as (s' & k' & S & _). rewrite S. discriminate.
Qed.
Print Assumptions C42_no_undefined_behaviour.

(** The close hook is called at most once, only after cio_socket_close; with it
    the timer's and the socket's descriptors are closed, exactly once each, just
    before it; afterwards nothing happens to the socket. *)
Theorem C42_closed_once : forall tmo s k, reach tmo sane (s, k) ->
  (count is_hook (tr s) = 0 /\ count is_fd_closed (tr s) = 0 /\ count is_timer_closed (tr s) = 0 /\ in_loop s = true) \/
  (exists t, tr s = t ++ [EvTimerClosed; EvFdClosed; EvHook] /\ In EvClose t /\
     count is_hook t = 0 /\ count is_fd_closed t = 0 /\ count is_timer_closed t = 0 /\ in_loop s = false /\ tk s = KDisarmed).
Proof.
  intros tmo s k R. pose proof (reach_cinv tmo sane _ (fun _ _ H => H) R) as C. cbn [fst snd] in C. destruct (alive s) eqn:A.
  - left. destruct (c_open _ _ C A) as (H1 & H2 & H3 & H4). auto.
  - right. destruct (c_done _ _ C A) as (H1 & H2 & t & H3 & H4 & H5 & H6 & H7). exists t. auto 10.
Qed.
Print Assumptions C42_closed_once.

(** After cio_socket_close and until the hook is called the close timer is
    running or has run out, so that closing always terminates: when the timer has
    run out, the event loop resets the connection and calls the hook. *)
Theorem C42_close_terminates : forall tmo s k, reach tmo sane (s, k) -> In EvClose (tr s) -> ~ In EvHook (tr s) ->
  tk s <> KDisarmed /\
  (tk s = KExpired -> k = [] -> exists s', step (s, []) XTimer = Ret (s', [OHook]) /\ tr s' = tr s ++ [EvLinger; EvTimerClosed; EvFdClosed; EvHook]).
Proof.
  intros tmo s k R CL NH. pose proof (reach_cinv tmo sane _ (fun _ _ H => H) R) as C. cbn [fst snd] in C.
  pose proof (alive_of _ _ C NH) as AL. destruct (c_closing _ _ C AL CL) as [TH TK]. split; [exact TK|]. intros KE ->.
  cbn [step]. rewrite KE, TH. unfold close_timeout_handler. destruct (c_open _ _ C AL) as (H1 & H2 & H3 & H4).
  destruct (reset_c (set_timer false KDisarmed s) []) as (s' & E' & _ & T'); auto; try (apply (c_wcb _ _ C)); try (intros []).
  exists s'. split; [exact E'|]. exact T'.
Qed.
Print Assumptions C42_close_terminates.

(** How cio_socket_close proceeds: at once (hook called within the call) when the
    peer has already closed or no close timeout is configured; else the sending
    side is shut down and the close timer is started (or the connection is reset
    if the kernel refuses). *)
Lemma close_call_state : forall tmo s k ch, reach tmo sane (s, k) -> ~ In EvHook (tr s) -> c_quick ch = false ->
  exists s' k', step (s, k) (XClose ch) = Ret (s', k') /\
  if (peer_closed s || (timeout_ns s =? 0)%N)%bool
  then tr s' = tr s ++ [EvClose; EvTimerClosed; EvFdClosed; EvHook] /\ k' = OHook :: k
  else match c_shutdown ch, c_settime ch, c_ctl ch with
  | None, None, None => tr s' = tr s ++ [EvClose; EvShutdown] /\ k' = k /\ tk s' = KRunning /\ reg_in s' = true /\ rd_cb s' = RUntilClose
  | Some _, _, _ => tr s' = tr s ++ [EvClose; EvLinger; EvTimerClosed; EvFdClosed; EvHook] /\ k' = OHook :: k
  | _, _, _ => tr s' = tr s ++ [EvClose; EvShutdown; EvLinger; EvTimerClosed; EvFdClosed; EvHook] /\ k' = OHook :: k
  end.
Proof.
  intros tmo s k ch R NH Q. pose proof (reach_cinv tmo sane _ (fun _ _ H => H) R) as C. cbn [fst snd] in C.
  pose proof (alive_of _ _ C NH) as AL. cbn [step]. unfold socket_close. rewrite AL. cbn [negb].
  change (peer_closed (log EvClose s)) with (peer_closed s). change (timeout_ns (log EvClose s)) with (timeout_ns s).
  replace (0 <? timeout_ns s)%N with (negb (timeout_ns s =? 0)%N) by (destruct (N.eqb_spec (timeout_ns s) 0), (N.ltb_spec 0 (timeout_ns s)); cbn; auto; lia).
  unfold close_socket, shutdown_socket, shutdown_end, reset_connection, close_socket. simp. rewrite AL, Q. cbn [negb].
  destruct (peer_closed s); cbn [orb]; [do 2 eexists; split; [reflexivity|]; simp; rewrite <- !app_assoc; auto|].
  destruct (timeout_ns s =? 0)%N; cbn [negb]; [do 2 eexists; split; [reflexivity|]; simp; rewrite <- !app_assoc; auto|].
  destruct (c_shutdown ch), (c_settime ch), (c_ctl ch); simp; rewrite ?AL; cbn [negb]; do 2 eexists; (split; [reflexivity|]); simp; rewrite <- !app_assoc; auto.
Qed.

(** The hypotheses are met: a socket that is reading is closed gracefully. *)
Definition graceful : list act := [XRead 10 ok_choice; XReadable (KRead [1%N; 2%N]) None; XReturn; XClose ok_choice].
Example closing_socket : exists s, reach 1000 sane (s, []) /\ In EvClose (tr s) /\ ~ In EvHook (tr s) /\ reg_in s = true /\ rd_cb s = RUntilClose /\ tk s = KRunning.
Proof.
  eexists. split; [apply (run_init _ _ graceful); [okr|vm_compute; reflexivity]|]. okr.
Qed.
Example closed_socket : exists s, reach 1000 sane (s, []) /\ In EvHook (tr s).
Proof.
  eexists. split; [apply (run_init _ _ (graceful ++ [XTimerExpire; XTimer; XReturn])); [okr|vm_compute; reflexivity]|]. okr.
Qed.

(** Refuted without the assumption on the timeout: a close timeout that has run
    out when cio_timer_expires_from_now reads the timer makes the close hook run
    inside that call; shutdown_socket then goes on using the socket. *)
Theorem C42_tiny_timeout_use_after_free_refuted : exists c, reach 1 anyone c /\ enabled c (XCont ok_choice) /\ step c (XCont ok_choice) = UB /\
  final (socket_init 1) [XClose (Choice None None None true); XReturn] = Ret c.
Proof.
  eexists. split; [apply (run_init _ _ [XClose (Choice None None None true); XReturn]); [okr|vm_compute; reflexivity]|]. split; [cbn; auto|]. split; reflexivity.
Qed.
Print Assumptions C42_tiny_timeout_use_after_free_refuted.

(** * C49 *)
(** Proved part: if the peer sends nothing between the close call and its end of
    stream, the close is graceful ([C42_graceful_close]).  Refuted in general:
    after any data from the peer the socket is no longer registered for reading,
    so that the end of stream is never read and the close ends with a reset. *)
Theorem C49_graceful_close_refuted : exists s, reach 1000 sane (s, []) /\
  tr s = [EvClose; EvShutdown] /\ reg_in s = false /\ in_loop s = true /\
  exists s', final (s, []) [XTimerExpire; XTimer] = Ret (s', [OHook]) /\ In EvLinger (tr s').
Proof.
  eexists. split; [apply (run_init _ _ [XClose ok_choice; XReadable (KRead [7%N]) None]); [okr|vm_compute; reflexivity]|].
  do 3 (split; [reflexivity|]). eexists. split; [reflexivity|]. cbn. tauto.
Qed.
Print Assumptions C49_graceful_close_refuted.

(** * C41 *)
Lemma close_dec t : In EvClose t \/ ~ In EvClose t.
Proof. induction t as [|e t [IH|IH]]; [auto|left; right; exact IH|]. destruct e; try (right; intros [X|X]; [discriminate|contradiction]). left. left. reflexivity. Qed.
(** Every accepted read is answered exactly once, or is still waiting while the
    event loop watches the descriptor for it, or the socket was closed. *)
Theorem C41_read_answered_once : forall tmo s k id, reach tmo orderly (s, k) -> count (is_read id) (tr s) <> 0 ->
  count (is_read id) (tr s) = 1 /\
  (count (is_read_done id) (tr s) = 1 \/
   (count (is_read_done id) (tr s) = 0 /\ rout (tr s) = Some id /\ (In EvClose (tr s) \/ (reg_in s = true /\ in_loop s = true)))).
Proof.
  intros tmo s k id R A. pose proof (reach_rinv _ _ R) as [T B _ _ RG]. cbn [fst] in *.
  assert (C : cinv s k) by (change (cinv (fst (s, k)) (snd (s, k))); eapply reach_cinv; [|exact R]; intros [] ? X; apply X).
  pose proof (t_r _ _ T id) as H. pose proof (t_r1 _ _ T id) as H1.
  split; [lia|]. destruct (rout (tr s)) as [i|] eqn:O; [destruct (Nat.eqb_spec i id)|]; [|left; lia..].
  subst i. right. split; [lia|]. split; [reflexivity|].
  destruct (close_dec (tr s)) as [I|I]; [left; exact I|right].
  destruct (RG I) as (G & _). destruct (rreq s); [|discriminate B]. split; [apply G; discriminate|].
  apply (c_open _ _ C). destruct (alive s) eqn:AL; [reflexivity|]. destruct (c_done _ _ C AL) as (_ & _ & t0 & T0 & CL & _). exfalso. apply I. rewrite T0, in_app_iff. auto.
Qed.
Print Assumptions C41_read_answered_once.
Theorem C41_write_answered_once : forall tmo s k id, reach tmo orderly (s, k) -> count (is_write id) (tr s) <> 0 ->
  count (is_write id) (tr s) = 1 /\
  (count (is_write_done id) (tr s) = 1 \/
   (count (is_write_done id) (tr s) = 0 /\ wout (tr s) = Some id /\ (In EvClose (tr s) \/ (reg_out s = true /\ in_loop s = true)))).
Proof.
  intros tmo s k id R A. pose proof (reach_rinv _ _ R) as [T _ B _ RG]. cbn [fst] in *.
  assert (C : cinv s k) by (change (cinv (fst (s, k)) (snd (s, k))); eapply reach_cinv; [|exact R]; intros [] ? X; apply X).
  pose proof (t_w _ _ T id) as H. pose proof (t_w1 _ _ T id) as H1.
  split; [lia|]. destruct (wout (tr s)) as [i|] eqn:O; [destruct (Nat.eqb_spec i id)|]; [|left; lia..].
  subst i. right. split; [lia|]. split; [reflexivity|].
  destruct (close_dec (tr s)) as [I|I]; [left; exact I|right].
  destruct (RG I) as (_ & G & _). destruct (wreq s); [|discriminate B]. split; [apply G; discriminate|].
  apply (c_open _ _ C). destruct (alive s) eqn:AL; [reflexivity|]. destruct (c_done _ _ C AL) as (_ & _ & t0 & T0 & CL & _). exfalso. apply I. rewrite T0, in_app_iff. auto.
Qed.
Print Assumptions C41_write_answered_once.
(** No handler call without a request. *)
Theorem C41_no_unasked_call : forall tmo s k id, reach tmo orderly (s, k) ->
  count (is_read_done id) (tr s) <= count (is_read id) (tr s) /\ count (is_write_done id) (tr s) <= count (is_write id) (tr s).
Proof.
  intros tmo s k id R. pose proof (reach_rinv _ _ R) as [T _ _ _ _]. cbn [fst] in *.
  pose proof (t_r _ _ T id). pose proof (t_w _ _ T id). lia.
Qed.
Print Assumptions C41_no_unasked_call.

(** What the read handler is told is what the kernel answered to the one read
    that was done for it: data, end of stream, or the error; it is called in no
    other case. *)
Definition answer (r : kread) (ctl : option Z) : rres :=
  match ctl, r with Some e, _ => RErr (- e)%Z | None, KErr e => RErr (- e)%Z | None, KRead [] => REof | None, KRead l => RData l end.
Definition read_dones (t : list sev) := filter (fun e => match e with EvReadDone _ _ => true | _ => false end) t.
Lemma rd_close s k s' k' : close_socket s k = Ret (s', k') -> read_dones (tr s') = read_dones (tr s).
Proof. unfold close_socket. destruct (alive s); [|discriminate]. cbn [negb]. intros [= <- _]. simp. unfold read_dones. rewrite !filter_app. cbn. rewrite !app_nil_r. reflexivity. Qed.
Lemma rd_reset s k s' k' : reset_connection s k = Ret (s', k') -> read_dones (tr s') = read_dones (tr s).
Proof. unfold reset_connection. destruct (alive s); [|discriminate]. cbn [negb]. intros H. apply rd_close in H. rewrite H. simp. unfold read_dones. rewrite filter_app. cbn. rewrite app_nil_r. reflexivity. Qed.

(** The outstanding request is the last accepted one. *)
Lemma close_keeps s k s' k' : close_socket s k = Ret (s', k') -> rreq s' = rreq s /\ exists t, tr s' = tr s ++ t.
Proof. unfold close_socket. destruct (alive s); [|discriminate]. cbn [negb]. intros [= <- _]. simp. split; [reflexivity|]. rewrite <- !app_assoc. eexists. reflexivity. Qed.
Lemma reset_keeps s k s' k' : reset_connection s k = Ret (s', k') -> rreq s' = rreq s /\ exists t, tr s' = tr s ++ t.
Proof. unfold reset_connection. destruct (alive s); [|discriminate]. cbn [negb]. intros H. apply close_keeps in H. simp. destruct H as (-> & t & ->). split; [reflexivity|]. rewrite <- app_assoc. eexists. reflexivity. Qed.

Definition kept (s s' : sock) : Prop := (rreq s' = rreq s \/ rreq s' = None) /\ (exists t, tr s' = tr s ++ t) /\ read_dones (tr s') = read_dones (tr s).
Lemma kept_close s0 s k s' k' : kept s0 s -> close_socket s k = Ret (s', k') -> kept s0 s'.
Proof.
  intros (A & (t & T) & D) H. pose proof (rd_close _ _ _ _ H). apply close_keeps in H. destruct H as (R & t' & T'). split; [rewrite R; exact A|]. split; [|congruence].
  exists (t ++ t'). rewrite T', T, app_assoc. reflexivity.
Qed.
Lemma kept_reset s0 s k s' k' : kept s0 s -> reset_connection s k = Ret (s', k') -> kept s0 s'.
Proof.
  intros (A & (t & T) & D) H. pose proof (rd_reset _ _ _ _ H). apply reset_keeps in H. destruct H as (R & t' & T'). split; [rewrite R; exact A|]. split; [|congruence].
  exists (t ++ t'). rewrite T', T, app_assoc. reflexivity.
Qed.
Lemma kept_self s s' t : tr s' = tr s ++ t -> read_dones t = [] -> rreq s' = rreq s -> kept s s'.
Proof. intros T D R. split; [auto|]. split; [exists t; exact T|]. rewrite T. unfold read_dones in *. rewrite filter_app, D, app_nil_r. reflexivity. Qed.

Lemma step_kept s k x s' k' : step (s, k) x = Ret (s', k') -> ~ In OShutdown2 k -> sane (s, k) x ->
  kept s s' \/
  (exists space ch, x = XRead space ch /\ rreq s' = Some (nid s, space) /\ (c_ctl ch = None -> tr s' = tr s ++ [EvRead (nid s) space]) /\ read_dones (tr s') = read_dones (tr s)) \/
  (exists r ctl id space, x = XReadable r ctl /\ rreq s = Some (id, space) /\ tr s' = tr s ++ [EvReadDone id (answer r ctl)] /\ rreq s' = None /\ k' = OUser :: k).
Proof.
  intros S NS SA.
  destruct x as [space ch|cn res ch|res ch|ch|r ctl|serr| | | |ch]; cbn [step] in S.
  - right. left. unfold stream_read in S. destruct (alive s); [|discriminate S]. cbn [negb] in S. exists space, ch. split; [reflexivity|].
    destruct (c_ctl ch); injection S as <- _; simp; (split; [reflexivity|]); (split; [intros X; try discriminate X; reflexivity|]); unfold read_dones; rewrite filter_app; apply app_nil_r.
  - left. unfold stream_write in S. destruct (alive s); [|discriminate S]. cbn [negb] in S. destruct res as [n|e]; [|destruct (Z.eqb e EAGAIN); [destruct (c_ctl ch)|]]; injection S as <- _;
    simp; rewrite <- ?app_assoc; eapply kept_self; simp; rewrite <- ?app_assoc; reflexivity.
  - left. unfold socket_connect in S. destruct (alive s); [|discriminate S]. cbn [negb] in S. destruct res as [e|]; [destruct (Z.eqb e EINPROGRESS); [destruct (c_ctl ch)|]|]; injection S as <- _;
    eapply kept_self; simp; rewrite <- ?app_assoc; reflexivity.
  - left. unfold socket_close in S. destruct (alive s) eqn:AL; [|discriminate S]. cbn [negb] in S.
    assert (K1 : kept s (log EvClose s)) by (eapply kept_self; simp; reflexivity).
    destruct (peer_closed _); [eapply kept_close; eassumption|]. destruct (N.ltb 0 _); [|eapply kept_close; eassumption].
    unfold shutdown_socket in S. destruct (c_shutdown ch); [eapply kept_reset; eassumption|].
    destruct (c_settime ch); [eapply kept_reset; [|exact S]; eapply kept_self; simp; rewrite <- ?app_assoc; reflexivity|].
    cbn in SA. destruct SA as [_ Q]. rewrite Q in S. unfold shutdown_end in S. destruct (negb _); [discriminate S|].
    destruct (c_ctl ch); [eapply kept_reset; [|exact S]|injection S as <- _]; eapply kept_self; simp; rewrite <- ?app_assoc; reflexivity.
  - destruct (alive s); [|discriminate S]. cbn [negb] in S. destruct (rd_cb s); [discriminate S| |].
    + unfold read_callback in S. destruct (rreq s) as [[id sp]|] eqn:RQ; [|discriminate S].
      destruct ctl as [e|]; [right; right; injection S as <- <-; exists r, (Some e), id, sp; auto 10|].
      destruct r as [[|y l]|e]; [right; right; injection S as <- <-; do 4 eexists; split; [reflexivity|]; auto 10..|].
      destruct (Z.eqb e EAGAIN); injection S as <- <-; [left; split; [auto|]; simp; split; [exists []; rewrite app_nil_r; reflexivity|reflexivity]|].
      right; right; do 4 eexists; split; [reflexivity|]; auto 10.
    + left. unfold read_until_close_callback, cancel_timer_and_reset_connection in S.
      assert (K1 : kept s (cancel_timer (set_regs false (reg_out s) s))).
      { unfold cancel_timer. destruct (th _); eapply (kept_self _ _ []); simp; rewrite ?app_nil_r; reflexivity. }
      assert (K2 : kept s (set_regs false (reg_out s) s)) by (eapply (kept_self _ _ []); simp; rewrite ?app_nil_r; reflexivity).
      destruct ctl; [eapply kept_reset; [exact K1|exact S]|]. destruct r as [[|y l]|e]; [eapply kept_close; [exact K1|exact S]|injection S as <- _; exact K2|].
      destruct (Z.eqb e EAGAIN); [injection S as <- _; exact K2|eapply kept_reset; [exact K1|exact S]].
  - left. destruct (alive s); [|discriminate S]. cbn [negb] in S. simp. destruct (wr_cb s); [discriminate S| |];
    [unfold write_callback in S; simp; destruct (wreq s); [|discriminate S]|unfold connect_callback in S; simp; destruct (creq s); [|discriminate S]]; injection S as <- _;
    eapply kept_self; simp; rewrite <- ?app_assoc; reflexivity.
  - left. injection S as <- _. eapply (kept_self _ _ []); simp; rewrite ?app_nil_r; reflexivity.
  - left. destruct (tk s); [injection S as <- _; eapply (kept_self _ _ []); simp; rewrite ?app_nil_r; reflexivity..|]. destruct (th s); [|discriminate S].
    eapply kept_reset; [|exact S]. eapply (kept_self _ _ []); simp; rewrite ?app_nil_r; reflexivity.
  - left. destruct k as [|[]]; injection S as <- _; eapply (kept_self _ _ []); simp; rewrite ?app_nil_r; reflexivity.
  - left. destruct k as [|[]]; try (injection S as <- _; eapply (kept_self _ _ []); simp; rewrite ?app_nil_r; reflexivity). exfalso. apply NS. left. reflexivity.
Qed.

Lemma sane_of c x : orderly c x -> sane c x.
Proof. destruct c. intros X. apply X. Qed.

Lemma reach_space tmo c : reach tmo orderly c -> forall id sp, rreq (fst c) = Some (id, sp) -> In (EvRead id sp) (tr (fst c)) /\ (0 < sp)%N.
Proof.
  induction 1 as [|[s k] x [s' k'] R IH E U S]; [discriminate|]. cbn [fst] in *.
  pose proof (reach_cinv tmo orderly _ sane_of R) as C. cbn [fst snd] in C.
  destruct (step_kept _ _ _ _ _ S (c_stack _ _ C) (sane_of _ _ U)) as [([K|K] & (t & T) & _)|[(space & ch & -> & K & T & _)|(r & ctl & i & sp0 & -> & _ & _ & K & _)]]; intros id sp Q; rewrite K in Q; try discriminate Q.
  - destruct (IH id sp Q). rewrite T, in_app_iff. auto.
  - injection Q as <- <-. destruct U as (_ & U1 & U2 & _). rewrite (T U2), in_snoc. auto.
Qed.

Theorem C41_read_reports_the_kernel : forall tmo s k x s' k', reach tmo orderly (s, k) -> enabled (s, k) x -> orderly (s, k) x -> step (s, k) x = Ret (s', k') ->
  (exists r ctl id space, x = XReadable r ctl /\ rout (tr s) = Some id /\ In (EvRead id space) (tr s) /\
     tr s' = tr s ++ [EvReadDone id (answer r ctl)] /\ k' = OUser :: k /\ (0 < space)%N /\ (forall l, r = KRead l -> (N.of_nat (length l) <= space)%N)) \/
  read_dones (tr s') = read_dones (tr s).
Proof.
  intros tmo s k x s' k' R E U S. pose proof (reach_cinv tmo orderly _ sane_of R) as C. cbn [fst snd] in C.
  destruct (step_kept _ _ _ _ _ S (c_stack _ _ C) (sane_of _ _ U)) as [(_ & _ & D)|[(space & ch & _ & _ & _ & D)|(r & ctl & id & sp & -> & Q & T & _ & K)]]; [right; exact D..|left].
  destruct (reach_space _ _ R id sp Q) as [I P]. exists r, ctl, id, sp. split; [reflexivity|]. pose proof (reach_rinv _ _ R) as [_ B _ _ _]. cbn [fst] in *. rewrite B, Q.
  split; [reflexivity|]. split; [exact I|]. split; [exact T|]. split; [exact K|]. split; [exact P|].
  intros l ->. destruct E as (_ & _ & _ & E). cbn [step] in S.
  destruct (alive s); [|discriminate S]. cbn [negb] in S. rewrite Q in E. destruct (rd_cb s) eqn:RC; [discriminate S|exact E|].
  exfalso. assert (X : read_dones (tr s') = read_dones (tr s)).
  { unfold read_until_close_callback, cancel_timer_and_reset_connection in S. assert (Y : tr (cancel_timer (set_regs false (reg_out s) s)) = tr s) by (unfold cancel_timer; destruct (th _); reflexivity).
    destruct ctl; [apply rd_reset in S; congruence|]. destruct l; [apply rd_close in S; congruence|]. injection S as <- _. reflexivity. }
  rewrite T in X. unfold read_dones in X. rewrite filter_app in X. cbn in X. apply (f_equal (@length _)) in X. rewrite app_length in X. cbn in X. lia.
Qed.
Print Assumptions C41_read_reports_the_kernel.

(** A waiting read is answered by the next readiness of the descriptor. *)
Theorem C41_readiness_answers : forall tmo s id r, reach tmo orderly (s, []) -> rout (tr s) = Some id -> ~ In EvClose (tr s) -> r <> KErr EAGAIN ->
  exists s', step (s, []) (XReadable r None) = Ret (s', [OUser]) /\ tr s' = tr s ++ [EvReadDone id (answer r None)].
Proof.
  intros tmo s id r R O NC NA. pose proof (reach_cinv tmo orderly _ sane_of R) as C. pose proof (reach_rinv _ _ R) as [_ B _ _ RG]. cbn [fst snd] in *.
  assert (AL : alive s = true). { destruct (alive s) eqn:AL; [reflexivity|]. destruct (c_done _ _ C AL) as (_ & _ & t0 & T0 & CL & _). exfalso. apply NC. rewrite T0, in_app_iff. auto. }
  destruct (RG NC) as (G & _). rewrite O in B. destruct (rreq s) as [[i sp]|] eqn:Q; [|discriminate B]. injection B as <-. destruct (G ltac:(discriminate)) as [_ G2].
  cbn [step]. rewrite AL, G2. cbn [negb]. unfold read_callback. rewrite Q. destruct r as [[|y l]|e].
  - eexists. split; reflexivity.
  - eexists. split; reflexivity.
  - destruct (Z.eqb_spec e EAGAIN); [subst e; contradiction|]. eexists. split; reflexivity.
Qed.
Print Assumptions C41_readiness_answers.

(** The bytes handed to the kernel are those reported to the write handler: the
    kernel only ever takes a prefix of the chain given to the call, and the
    handler is told its exact length; a handler called later reports 0. *)
Inductive honest : list sev -> Prop :=
| honest_nil : honest []
| honest_other t e : honest t -> (match e with EvSent _ => False | EvWriteDone _ _ n => n = 0%N | _ => True end) -> honest (t ++ [e])
| honest_write t id c n : honest t -> (n <= N.of_nat (length (concat c)))%N ->
    honest (t ++ [EvWrite id c; EvSent (firstn (N.to_nat n) (concat c)); EvWriteDone id SUCCESS n]).
Lemma honest_close s k s' k' : honest (tr s) -> close_socket s k = Ret (s', k') -> honest (tr s').
Proof. intros H. unfold close_socket. destruct (alive s); [|discriminate]. cbn [negb]. intros [= <- _]. simp. repeat (apply honest_other; [|exact I]). exact H. Qed.
Lemma honest_reset s k s' k' : honest (tr s) -> reset_connection s k = Ret (s', k') -> honest (tr s').
Proof. intros H. unfold reset_connection. destruct (alive s); [|discriminate]. cbn [negb]. apply honest_close. simp. apply honest_other; [exact H|exact I]. Qed.
Lemma tr_cancel s : tr (cancel_timer s) = tr s.
Proof. unfold cancel_timer. destruct (th s); reflexivity. Qed.
Ltac ho := simp; repeat (apply honest_other; [|first [exact I | reflexivity]]); assumption.
Lemma reach_honest tmo c : reach tmo anyone c -> honest (tr (fst c)).
Proof.
  induction 1 as [|[s k] x [s' k'] R H E U S]; [apply honest_nil|]. cbn [fst] in *.
  destruct x as [space ch|cn res ch|res ch|ch|r ctl|serr| | | |ch]; cbn [step] in S.
  - unfold stream_read in S. destruct (alive s); [|discriminate S]. cbn [negb] in S. destruct (c_ctl ch); injection S as <- _; ho.
  - unfold stream_write in S. destruct (alive s); [|discriminate S]. cbn [negb] in S. destruct res as [n|e]; [|destruct (Z.eqb e EAGAIN); [destruct (c_ctl ch)|]]; injection S as <- _; [|ho..].
    simp. rewrite <- !app_assoc. apply honest_write; [exact H|apply E].
  - unfold socket_connect in S. destruct (alive s); [|discriminate S]. cbn [negb] in S. destruct res as [e|]; [destruct (Z.eqb e EINPROGRESS); [destruct (c_ctl ch)|]|]; injection S as <- _; ho.
  - unfold socket_close in S. destruct (negb (alive s)); [discriminate S|].
    destruct (peer_closed _); [eapply honest_close; [|exact S]; ho|]. destruct (N.ltb 0 _); [|eapply honest_close; [|exact S]; ho].
    unfold shutdown_socket in S. destruct (c_shutdown ch); [eapply honest_reset; [|exact S]; ho|].
    destruct (c_settime ch); [eapply honest_reset; [|exact S]; ho|]. destruct (c_quick ch).
    + unfold close_timeout_handler in S. eapply honest_reset; [|exact S]; ho.
    + unfold shutdown_end in S. destruct (negb _); [discriminate S|]. destruct (c_ctl ch); [eapply honest_reset; [|exact S]; ho|]. injection S as <- _. ho.
  - destruct (negb (alive s)); [discriminate S|]. destruct (rd_cb s); [discriminate S| |].
    + unfold read_callback in S. destruct (rreq s) as [[id sp]|]; [|discriminate S].
      destruct ctl; [injection S as <- _; ho|]. destruct r as [[|y l]|e]; [injection S as <- _; ho..|]. destruct (Z.eqb e EAGAIN); injection S as <- _; ho.
    + unfold read_until_close_callback, cancel_timer_and_reset_connection in S.
      destruct ctl; [eapply honest_reset; [|exact S]; rewrite tr_cancel; ho|]. destruct r as [[|y l]|e]; [eapply honest_close; [|exact S]; rewrite tr_cancel; ho|injection S as <- _; ho|].
      destruct (Z.eqb e EAGAIN); [injection S as <- _; ho|eapply honest_reset; [|exact S]; rewrite tr_cancel; ho].
  - destruct (negb (alive s)); [discriminate S|]. simp. destruct (wr_cb s); [discriminate S| |];
    [unfold write_callback in S; simp; destruct (wreq s); [|discriminate S]|unfold connect_callback in S; simp; destruct (creq s); [|discriminate S]]; injection S as <- _; ho.
  - injection S as <- _. ho.
  - destruct (tk s); [injection S as <- _; ho..|]. destruct (th s); [|discriminate S]. unfold close_timeout_handler in S. eapply honest_reset; [|exact S]. ho.
  - destruct k as [|[]]; injection S as <- _; ho.
  - destruct k as [|[]]; try (injection S as <- _; ho). unfold shutdown_end in S. destruct (negb _); [discriminate S|]. destruct (c_ctl ch); [eapply honest_reset; [|exact S]; ho|]. injection S as <- _. ho.
Qed.

Lemma snoc_split {A} (t : list A) e a x b : t ++ [e] = a ++ x :: b -> (b = [] /\ a = t /\ x = e) \/ exists b', b = b' ++ [e] /\ t = a ++ x :: b'.
Proof.
  intros H. destruct (rev b) as [|y rb] eqn:RB.
  - apply (f_equal (@rev A)) in RB. rewrite rev_involutive in RB. cbn in RB. subst b. apply app_inj_tail in H. destruct H as [-> ->]. auto.
  - apply (f_equal (@rev A)) in RB. rewrite rev_involutive in RB. cbn in RB. subst b. right. exists (rev rb).
    change (a ++ x :: rev rb ++ [y]) with (a ++ (x :: rev rb) ++ [y]) in H. rewrite app_assoc in H. apply app_inj_tail in H. destruct H as [-> ->]. auto.
Qed.

Theorem C41_bytes_sent_are_reported : forall tmo c a l b, reach tmo anyone c -> tr (fst c) = a ++ EvSent l :: b ->
  exists id ch a' b', a = a' ++ [EvWrite id ch] /\ b = EvWriteDone id SUCCESS (N.of_nat (length l)) :: b' /\ l = firstn (length l) (concat ch).
Proof.
  intros tmo c a l b R. generalize (reach_honest _ _ R). generalize (tr (fst c)). intros t H. revert a l b. clear R. induction H as [|t e H IH N|t id ch n H IH N]; intros a l b X.
  - destruct a; discriminate.
  - apply snoc_split in X. destruct X as [(-> & -> & <-)|(b' & -> & X)]; [contradiction|].
    destruct (IH _ _ _ X) as (id & ch & a' & b'' & -> & -> & L). exists id, ch, a', (b'' ++ [e]). auto.
  - change [EvWrite id ch; EvSent (firstn (N.to_nat n) (concat ch)); EvWriteDone id SUCCESS n] with ([EvWrite id ch; EvSent (firstn (N.to_nat n) (concat ch))] ++ [EvWriteDone id SUCCESS n]) in X.
    rewrite app_assoc in X. apply snoc_split in X. destruct X as [(_ & _ & X)|(b1 & -> & X)]; [discriminate|].
    change [EvWrite id ch; EvSent (firstn (N.to_nat n) (concat ch))] with ([EvWrite id ch] ++ [EvSent (firstn (N.to_nat n) (concat ch))]) in X. rewrite app_assoc in X.
    apply snoc_split in X. destruct X as [(-> & -> & X)|(b2 & -> & X)].
    + injection X as ->. assert (L : length (firstn (N.to_nat n) (concat ch)) = N.to_nat n) by (apply firstn_length_le; lia).
      exists id, ch, t, []. rewrite L, N2Nat.id. auto.
    + apply snoc_split in X. destruct X as [(_ & _ & X)|(b3 & -> & X)]; [discriminate|].
      destruct (IH _ _ _ X) as (i & c' & a' & b'' & -> & -> & L). exists i, c', a', (((b'' ++ [EvWrite id ch]) ++ [EvSent (firstn (N.to_nat n) (concat ch))]) ++ [EvWriteDone id SUCCESS n]). auto.
Qed.
Print Assumptions C41_bytes_sent_are_reported.
Theorem C41_bytes_reported_are_sent : forall tmo c a id e n b, reach tmo anyone c -> tr (fst c) = a ++ EvWriteDone id e n :: b -> n <> 0%N ->
  exists ch a' l, a = a' ++ [EvWrite id ch; EvSent l] /\ length l = N.to_nat n /\ l = firstn (length l) (concat ch) /\ e = SUCCESS.
Proof.
  intros tmo c a id e n b R. generalize (reach_honest _ _ R). generalize (tr (fst c)). intros t H. revert a id e n b. clear R. induction H as [|t e0 H IH N|t id0 ch n0 H IH N]; intros a id e n b X NZ.
  - destruct a; discriminate.
  - apply snoc_split in X. destruct X as [(-> & -> & <-)|(b' & -> & X)]; [contradiction|]. eapply IH; eassumption.
  - change [EvWrite id0 ch; EvSent (firstn (N.to_nat n0) (concat ch)); EvWriteDone id0 SUCCESS n0] with ([EvWrite id0 ch; EvSent (firstn (N.to_nat n0) (concat ch))] ++ [EvWriteDone id0 SUCCESS n0]) in X.
    rewrite app_assoc in X. apply snoc_split in X. destruct X as [(-> & -> & X)|(b1 & -> & X)].
    + injection X as -> -> ->. assert (L : length (firstn (N.to_nat n0) (concat ch)) = N.to_nat n0) by (apply firstn_length_le; lia). do 3 eexists. rewrite L. auto.
    + change [EvWrite id0 ch; EvSent (firstn (N.to_nat n0) (concat ch))] with ([EvWrite id0 ch] ++ [EvSent (firstn (N.to_nat n0) (concat ch))]) in X. rewrite app_assoc in X.
      apply snoc_split in X. destruct X as [(_ & _ & X)|(b2 & -> & X)]; [discriminate|]. apply snoc_split in X. destruct X as [(_ & _ & X)|(b3 & -> & X)]; [discriminate|]. eapply IH; eassumption.
Qed.
Print Assumptions C41_bytes_reported_are_sent.

(** The hypotheses are met: reads with data and end of stream, a complete, a
    partial and a delayed write. *)
Definition busy : list act :=
  [XRead 10 ok_choice; XWrite [[1%N]; [2%N; 3%N]] (inl 2%N) ok_choice; XReturn; XWrite [[3%N]] (inr EAGAIN) ok_choice;
   XReadable (KRead [8%N; 9%N]) None; XRead 8 ok_choice; XReturn; XWritable 0%Z; XReturn; XReadable (KRead []) None; XReturn; XRead 4 ok_choice].
Example busy_socket : exists s, reach 1000 orderly (s, []) /\ rout (tr s) = Some 4 /\ ~ In EvClose (tr s) /\
  tr s = [EvRead 0 10; EvWrite 1 [[1%N]; [2%N; 3%N]]; EvSent [1%N; 2%N]; EvWriteDone 1 0 2; EvWrite 2 [[3%N]];
          EvReadDone 0 (RData [8%N; 9%N]); EvRead 3 8; EvWriteDone 2 0 0; EvReadDone 3 REof; EvRead 4 4].
Proof. eexists. split; [apply (run_init _ _ busy); [okr|vm_compute; reflexivity]|]. okr. Qed.

(** Refuted without the conduct assumed in [orderly]: *)
(** - a kernel that reports readiness and then answers EAGAIN makes the socket
      forget the request: its handler is never called. *)
Theorem C41_spurious_readiness_refuted : exists s, reach 1000 anyone (s, []) /\ rout (tr s) = Some 0 /\ ~ In EvClose (tr s) /\ reg_in s = false /\
  forall r ctl, ~ enabled (s, []) (XReadable r ctl).
Proof.
  eexists. split; [apply (run_init _ _ [XRead 10 ok_choice; XReadable (KErr EAGAIN) None]); [okr|vm_compute; reflexivity]|]. okr; intros (_ & _ & X & _); discriminate X.
Qed.
Print Assumptions C41_spurious_readiness_refuted.
(** - a read with a full buffer reports the end of stream of a connection that is
      open, and later closes are not graceful. *)
Theorem C41_full_buffer_reported_as_eof_refuted : exists s s', reach 1000 anyone (s, []) /\ tr s = [EvRead 0 0] /\
  (forall l ctl, enabled (s, []) (XReadable (KRead l) ctl) -> l = []) /\
  step (s, []) (XReadable (KRead []) None) = Ret (s', [OUser]) /\ tr s' = [EvRead 0 0; EvReadDone 0 REof] /\ peer_closed s' = true.
Proof.
  eexists. eexists. split; [apply (run_init _ _ [XRead 0 ok_choice]); [okr|vm_compute; reflexivity]|]. split; [reflexivity|]. split.
  - intros l ctl (_ & _ & _ & H). cbn in H. destruct l; [reflexivity|cbn in H; lia].
  - split; [reflexivity|]. split; reflexivity.
Qed.
Print Assumptions C41_full_buffer_reported_as_eof_refuted.
(** - a second read while one is waiting replaces it: the first is never answered. *)
Theorem C41_second_read_refuted : exists s, reach 1000 anyone (s, []) /\
  tr s = [EvRead 0 5; EvRead 1 5; EvReadDone 1 (RData [1%N])] /\ rreq s = None /\ reg_in s = false.
Proof. eexists. split; [apply (run_init _ _ [XRead 5 ok_choice; XRead 5 ok_choice; XReadable (KRead [1%N]) None; XReturn]); [okr|vm_compute; reflexivity]|]. okr. Qed.
Print Assumptions C41_second_read_refuted.
(** - a blocked write during a pending connect makes the connect handler never
      be called. *)
Theorem C41_write_while_connecting_refuted : exists s, reach 1000 anyone (s, []) /\
  tr s = [EvConnect 0; EvWrite 1 [[1%N]]; EvWriteDone 1 0 0] /\ creq s = Some 0 /\ reg_out s = false.
Proof. eexists. split; [apply (run_init _ _ [XConnect (Some EINPROGRESS) ok_choice; XWrite [[1%N]] (inr EAGAIN) ok_choice; XWritable 0%Z; XReturn]); [okr|vm_compute; reflexivity]|]. okr. Qed.
Print Assumptions C41_write_while_connecting_refuted.
