(** C26: the closing handshake ends the connection once. *)
From Verif Require Import Base Utf8Model MaskModel MaskSpec EndianModel EndianSpec EndianProofs
  WsModel WsFrame WsSendProofs WsRecvSpec WsFrameSpec WsSend WsHistory WsTrace WsExec WsRecvProofs WsRecvReach WsClean WsRecvProps WsRecvProps2
  WsQueue WsOutSpec WsArrive WsWire WsOut WsOutStep WsOutReach WsOutProps WsRefuse WsClose.
Open Scope N_scope.
Set Warnings "-unused-intro-pattern".

(** Close frames handed to the stream. *)
Definition close_frames (l : list ev) : nat := length (filter (fun x => jname_eqb (fst x) JClose) (sends l)).

Lemma tidy_split l1 : forall e l0, tidy (l1 ++ e :: l0) -> tidy_ev e l0 /\ tidy l0.
Proof. induction l1 as [|a l1 IH]; intros e l0 H; cbn in H; [exact H|]. apply IH, H. Qed.
Lemma tidy_hooks l : tidy l -> (hooks l <= 1)%nat.
Proof.
  induction l as [|e l IH]; intros H; [apply Nat.le_0_l|]. destruct H as [H1 H2]. change (hooks (e :: l)) with (hooks ([e] ++ l)). rewrite hooks_app. specialize (IH H2).
  destruct e; try exact IH. destruct H1 as [-> _]. apply le_n.
Qed.
Lemma asked_closes l : close_asked l = false -> closes l = 0%nat.
Proof. unfold close_asked, closes. induction l as [|e l IH]; [reflexivity|]. cbn. destruct (close_ev e); [discriminate|exact IH]. Qed.
Lemma tidy_closes l : tidy l -> (closes l <= 1)%nat.
Proof.
  induction l as [|e l IH]; intros H; [apply Nat.le_0_l|]. destruct H as [H1 H2]. specialize (IH H2). unfold closes in *. cbn [filter]. destruct (close_ev e) eqn:E; [|exact IH].
  destruct e; try discriminate E. destruct j; try discriminate E. cbn in H1. apply asked_closes in H1. unfold closes in H1. cbn [length]. lia.
Qed.
Lemma closes_accepts l : closes l = length (filter (fun a => jname_eqb (ent_name a) JClose) (accepts l)).
Proof.
  unfold closes, accepts. induction l as [|e l IH]; [reflexivity|]. cbn [collect filter]. rewrite filter_app, app_length, <- IH.
  destruct e; cbn; try lia. destruct j; cbn; lia.
Qed.
Lemma tidy_after l1 : forall l0 e, tidy (l1 ++ EvHook :: l0) -> In e l1 -> is_hook e = false /\ delivery e = false.
Proof.
  intros l0 e H I. apply in_split in I. destruct I as (a & b & ->). rewrite <- app_assoc in H. cbn [app] in H. apply tidy_split in H. destruct H as [H _].
  assert (X : hooks (b ++ EvHook :: l0) <> 0%nat). { rewrite hooks_app. change (hooks (EvHook :: l0)) with (S (hooks l0)). lia. }
  destruct e; cbn in H |- *; try (destruct (X H)); try (split; reflexivity). destruct H as [H _]. destruct (X H).
Qed.

Section P.
Variable C : cfg.
Hypothesis HC : cfg_ok C.
Lemma good_state s k : reach C proper (s, k) -> no_error (tr s) -> tidy (tr s).
Proof. intros H N. apply (reach_closing C HC s k H). eapply no_error_cbe; eassumption. Qed.
End P.

(** ** The theorems: as long as no error was reported. *)

(** The close hook is called at most once, whatever the order of local close, peer's close, timeout and write completions. *)
Theorem ws_hook_called_at_most_once_partial : forall C s k, cfg_ok C -> reach C proper (s, k) -> no_error (tr s) -> (hooks (tr s) <= 1)%nat.
Proof. intros C s k HC H N. apply tidy_hooks. eapply good_state; eassumption. Qed.
Print Assumptions ws_hook_called_at_most_once_partial.

(** At most one close frame is sent. *)
Theorem ws_at_most_one_close_frame_partial : forall C s k, cfg_ok C -> reach C proper (s, k) -> no_error (tr s) -> (close_frames (tr s) <= 1)%nat.
Proof.
  intros C s k HC H N. pose proof (tidy_closes _ (good_state C HC s k H N)) as X. rewrite closes_accepts in X.
  destruct (ws_writes_in_order C s k HC H N) as (A & B & E & F). rewrite E, filter_app, app_length in X. unfold close_frames.
  assert (Y : length (filter (fun a => jname_eqb (ent_name a) JClose) A) = length (filter (fun x => jname_eqb (fst x) JClose) (sends (tr s)))); [|lia].
  clear - F. induction F as [|a x A S [E _] F IH]; [reflexivity|]. cbn [filter]. rewrite E. destruct (jname_eqb (ent_name a) JClose); cbn [length]; rewrite IH; reflexivity.
Qed.
Print Assumptions ws_at_most_one_close_frame_partial.

(** After the close hook nothing is delivered: no data, no control frame, no end of file, no second hook. *)
Theorem ws_nothing_delivered_after_hook_partial : forall C s k l1 l0 e, cfg_ok C -> reach C proper (s, k) -> no_error (tr s) ->
  tr s = l1 ++ EvHook :: l0 -> In e l1 -> e <> EvHook /\ e <> EvEof /\ (forall kind data, e <> EvControl kind data) /\ (forall b n d c f, e <> EvData b n d c f).
Proof.
  intros C s k l1 l0 e HC H N E I. pose proof (good_state C HC s k H N) as X. rewrite E in X. destruct (tidy_after _ _ _ X I) as [X1 X2].
  repeat split; intros; intros ->; discriminate.
Qed.
Print Assumptions ws_nothing_delivered_after_hook_partial.

(** When the close was not asked for by the application, all handlers of messages and pings were called before the hook. *)
Theorem ws_handlers_called_before_hook_partial : forall C s k l1 l0, cfg_ok C -> reach C proper (s, k) -> no_error (tr s) ->
  tr s = l1 ++ EvHook :: l0 -> (forall id code reason, ~ In (EvCall (AClose id code reason)) l0) -> dones l0 = musers (accepts l0).
Proof.
  intros C s k l1 l0 HC H N E NC. pose proof (good_state C HC s k H N) as X. rewrite E in X. apply tidy_split in X. destruct X as [[_ X] _]. apply X.
  destruct (local_close l0) eqn:L; [|reflexivity]. exfalso. unfold local_close in L. apply existsb_exists in L. destruct L as (e & I & Q). destruct e; try discriminate Q. destruct a; try discriminate Q. exact (NC _ _ _ I).
Qed.
Print Assumptions ws_handlers_called_before_hook_partial.

(** A close is not forgotten: once a close frame was requested and the library has returned to the event loop, the hook
    was called, or the close timer runs, or the stream holds a write whose completion is still to come. *)
Theorem ws_close_not_forgotten_partial : forall C s, cfg_ok C -> reach C proper (s, []) -> no_error (tr s) -> close_asked (tr s) = true ->
  In EvHook (tr s) \/ timer s = true \/ inflight (T s) = 1%nat.
Proof.
  intros C s HC H N A. pose proof (no_error_cbe _ _ _ _ H N) as CB. destruct (reach_closing C HC s [] H CB) as [_ [[]|Z]].
  destruct (reach_out C HC s [] H) as (q & B & V). rewrite CB in V. destruct V as [V|[(o & k' & X & _) _]]; [|discriminate X].
  pose proof (z_bal _ _ Z) as z1. rewrite A in z1. cbn [nclose filter length b2n] in z1. destruct (timer s); [auto|]. destruct (resp (T s)) eqn:RS.
  - right. right. pose proof (z_in _ _ Z RS q (b_rep _ _ _ _ B)) as IN. pose proof (tok_in C _ _ _ _ _ V I) as TK. cbn in TK. destruct q as [|n q]; [destruct IN|]. cbn [one] in TK. lia.
  - left. cbn [b2n] in z1. unfold hooks in z1. destruct (filter is_hook (tr s)) as [|e r] eqn:F; [cbn in z1; lia|].
    assert (X : In e (filter is_hook (tr s))) by (rewrite F; left; reflexivity). apply filter_In in X. destruct X as [X Y]. destruct e; try discriminate Y. exact X.
Qed.
Print Assumptions ws_close_not_forgotten_partial.

(** ** Concrete runs *)

(** The peer closes while a message is being written: the message is finished, the close frame answered, the hook called. *)
Example peer_close_example : exists s k, reach cli proper (s, k) /\ no_error (tr s) /\ k = [] /\ hooks (tr s) = 1%nat /\ close_frames (tr s) = 1%nat /\
  dones (tr s) = [(JMsg, 1%nat)] /\ exists l, tr s = EvHook :: EvEof :: l.
Proof.
  go_it cli ([readcall; op1; say 1 [72; 105]; arrive [0x88; 0]; op1; arrive [0]; op1; XWritten 0] ++ ops 4 ++ [XWritten 0] ++ ops 6).
  split; [not_there|]. split; [reflexivity|]. split; [reflexivity|]. split; [reflexivity|]. split; [reflexivity|]. eexists. reflexivity.
Qed.
(** The application closes, the peer answers. *)
Example local_close_example : exists s k, reach cli proper (s, k) /\ no_error (tr s) /\ k = [] /\ hooks (tr s) = 1%nat /\ close_frames (tr s) = 1%nat /\ timer s = false.
Proof.
  go_it cli ([readcall; op1; bye 3; XWritten 0] ++ ops 4 ++ [arrive [0x88; 0]; op1; arrive [0]] ++ ops 5).
  split; [not_there|]. repeat split.
Qed.

(** ** The defects *)

(** A local close, then an error before the peer answers: the close timer is still armed when the connection is closed; it
    expires and the close hook is called a second time. *)
Theorem ws_hook_called_twice_refuted : exists s k, reach cli proper (s, k) /\ hooks (tr s) = 2%nat /\ close_frames (tr s) = 2%nat.
Proof.
  go_it cli ([readcall; op1; bye 3; XWritten 0] ++ ops 4 ++ [arrive [0xF1; 0]] ++ ops 4 ++ [XWritten 0] ++ ops 7 ++ [XTimer 0] ++ ops 3). split; reflexivity.
Qed.
Print Assumptions ws_hook_called_twice_refuted.

(** Local close and peer's close cross while a message is being written: the hook is called, the message's handler never. *)
Theorem ws_crossing_close_forgets_handlers_refuted : exists s k, reach cli proper (s, k) /\ no_error (tr s) /\
  In EvHook (tr s) /\ dones (tr s) = [] /\ musers (accepts (tr s)) = [(JMsg, 1%nat)] /\ forall x, ~ enabled (s, k) x.
Proof.
  go_it cli ([readcall; op1; say 1 [72; 105]; bye 3; arrive [0x88; 0]; op1; arrive [0]] ++ ops 5).
  split; [not_there|]. split; [cbn; tauto|]. split; [reflexivity|]. split; [reflexivity|].
  intros [ch|a ch|f ch|e|e]; cbn.
  - intros [X _]. apply X. reflexivity.
  - intros (_ & X & _). discriminate X.
  - intros (_ & X & _). discriminate X.
  - intros (_ & X & _). discriminate X.
  - intros (_ & X & _). discriminate X.
Qed.
Print Assumptions ws_crossing_close_forgets_handlers_refuted.


(** A pong is being written, a message and a local close wait behind it; when the pong is written, reading goes on at once and
    finds the peer's close frame: the hook is called, and then the waiting message is handed to the closed stream. *)
Theorem ws_send_after_hook_refuted : exists s k, reach cli proper (s, k) /\ no_error (tr s) /\
  exists c l, tr s = EvSend JMsg c :: l /\ In EvHook l /\ hooked s = true.
Proof.
  go_it cli ([readcall; op1; arrive [0x89; 0]; op1; arrive [0]; op1; say 1 [72; 105]; bye 3; XWritten 0] ++ ops 3 ++ [arrive [0x88; 0]; op1; arrive [0]] ++ ops 7).
  split; [not_there|]. eexists _, _. split; [reflexivity|]. split; [cbn; tauto|reflexivity].
Qed.
Print Assumptions ws_send_after_hook_refuted.

(** While a local close frame is being written a ping arrives.  When the close frame is written, the pong queued behind it is aborted, which the
    library takes for an error: the error is reported, a second close frame is handed to the stream and its job aborted at once, the application's close
    handler (3) is never called, and when the second close frame is written the library dereferences a null pointer. *)
Theorem ws_ping_during_close_refuted : exists s k, reach cli proper (s, k) /\ k = [] /\ close_frames (tr s) = 2%nat /\ ~ no_error (tr s) /\
  In (EvCall (AClose (Some 3%nat) 1000 None)) (tr s) /\ (forall err c, ~ In (EvWriteDone JClose 3 err c) (tr s)) /\
  enabled (s, k) (XWritten 0) /\ exists c', step cli (s, k) (XWritten 0) = Ret c' /\ step cli c' (XOp ch0) = UB.
Proof.
  go_it cli ([readcall; op1; bye 3; arrive [0x89; 0]; op1; arrive [0]; op1; XWritten 0] ++ ops 11).
  split; [reflexivity|]. split; [reflexivity|]. split; [intros X; eapply X; cbn; eauto 20|]. split; [cbn; tauto|]. split; [not_there|].
  split; [apply enabledb_ok; reflexivity|]. eexists. split; reflexivity.
Qed.
Print Assumptions ws_ping_during_close_refuted.
