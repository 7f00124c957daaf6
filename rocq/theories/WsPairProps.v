(** C70: what the application on one side writes is what the application on the other side gets. *)
From Verif Require Import Base Utf8Model Utf8Spec MaskModel MaskSpec MaskProofs EndianModel EndianSpec EndianProofs
  WsModel WsFrame WsSendProofs WsRecvSpec WsDecode WsFrameSpec WsCodec WsSend WsHistory WsTrace WsExec WsRecvProofs WsRecvReach WsClean WsRecvProps WsRecvProps2
  WsQueue WsOutSpec WsArrive WsWire WsOut WsOutStep WsOutReach WsOutProps WsRefuse WsFrames WsFrameProps WsPairSpec WsPairProofs.
Open Scope N_scope.

(** Everywhere: endpoint A with configuration [CA] is in state [sA], endpoint B of the opposite role in state [sB], and what B has read is the
    beginning of what A has handed to its stream; [onway] is in between.  No assumption is made about how either run came about, about
    the cutting of the stream into pieces, or about the relative speed of the two. *)
Definition opposite (CA CB : cfg) : Prop := is_server CB = negb (is_server CA).
Definition connected (sA sB : ws) (onway : list N) : Prop := inp sB ++ onway = bytes_sent (tr sA).

Lemma pair_prefix CA CB sA kA sB kB onway : cfg_ok CA -> cfg_ok CB -> opposite CA CB -> reach CA whole_frames (sA, kA) -> no_error (tr sA) -> reach CB one_read_at_a_time (sB, kB) -> connected sA sB onway ->
  exists fs, prefix (map content fs) (wanted (tr sA)) /\ after_all None fs <> None /\ prefix (delivered (tr sB)) (frames_outs None fs).
Proof.
  intros HA HB OP RA NA RB CN. destruct (sender_outs CA sA kA HA RA NA) as (fs & P & A & D). exists (until_close fs). split; [|split; [exact A|]].
  - eapply prefix_trans; [|exact P]. apply map_prefix. destruct (until_prefix fs) as [r R]. exists r. exact R.
  - rewrite <- D, <- OP, <- CN. eapply prefix_trans; [apply (ws_delivers_only_what_was_sent CB sB kB HB RB)|apply decode_prefix].
Qed.

(** The messages B got are the first of those A wrote: same order, same type, same bytes, none lost, none twice. *)
Theorem C70_messages_arrive_in_order : forall CA CB sA kA sB kB onway, cfg_ok CA -> cfg_ok CB -> opposite CA CB ->
  reach CA whole_frames (sA, kA) -> no_error (tr sA) -> reach CB one_read_at_a_time (sB, kB) -> connected sA sB onway ->
  prefix (received (delivered (tr sB))) (sent_messages (tr sA)).
Proof.
  intros CA CB sA kA sB kB onway HA HB OP RA NA RB CN. destruct (pair_prefix CA CB sA kA sB kB onway HA HB OP RA NA RB CN) as (fs & P & A & D).
  eapply prefix_trans; [apply prefix_received, D|]. unfold received. rewrite (outs_messages fs None [] A (fun _ => eq_refl)). rewrite <- (proj1 (wanted_sent (tr sA))). apply prefix_written, P.
Qed.
Print Assumptions C70_messages_arrive_in_order.

(** Likewise the payloads of the pings. *)
Theorem C70_pings_arrive_in_order : forall CA CB sA kA sB kB onway, cfg_ok CA -> cfg_ok CB -> opposite CA CB ->
  reach CA whole_frames (sA, kA) -> no_error (tr sA) -> reach CB one_read_at_a_time (sB, kB) -> connected sA sB onway ->
  prefix (got_controls 9 (delivered (tr sB))) (sent_pings (tr sA)).
Proof.
  intros CA CB sA kA sB kB onway HA HB OP RA NA RB CN. destruct (pair_prefix CA CB sA kA sB kB onway HA HB OP RA NA RB CN) as (fs & P & A & D).
  eapply prefix_trans; [apply prefix_got, D|]. rewrite outs_controls by (lia || exact A). rewrite <- pings_wanted. apply prefix_controls, P.
Qed.
Print Assumptions C70_pings_arrive_in_order.

(** And A gets back, as pongs, the payloads of its own pings, in the order in which it sent them. *)
Theorem C70_pongs_answer_pings : forall CA CB sA kA sB kB onway back, cfg_ok CA -> cfg_ok CB -> opposite CA CB ->
  reach CA whole_frames (sA, kA) -> no_error (tr sA) -> reach CB whole_frames (sB, kB) -> no_error (tr sB) -> connected sA sB onway -> connected sB sA back ->
  prefix (got_controls 10 (delivered (tr sA))) (sent_pings (tr sA)).
Proof.
  intros CA CB sA kA sB kB onway back HA HB OP RA NA RB NB CN CM.
  assert (R1 : forall C s k, reach C whole_frames (s, k) -> reach C one_read_at_a_time (s, k)) by (intros C s k H; eapply reach_mono; [|exact H]; intros c x [Q _]; apply proper_reads, Q).
  assert (OP' : opposite CB CA) by (unfold opposite in *; rewrite OP, negb_involutive; reflexivity).
  destruct (pair_prefix CB CA sB kB sA kA back HB HA OP' RB NB (R1 _ _ _ RA) CM) as (fs & P & A & D).
  eapply prefix_trans; [apply prefix_got, D|]. rewrite outs_controls by (lia || exact A). eapply prefix_trans; [apply prefix_controls, P|].
  rewrite (pongs_answer CB sB kB HB RB NB). exact (C70_pings_arrive_in_order CA CB sA kA sB kB onway HA HB OP RA NA (R1 _ _ _ RB) CN).
Qed.
Print Assumptions C70_pongs_answer_pings.

(** Nothing is lost: when A has nothing in progress, B has read everything and is back in its event loop, and neither side
    raised an error, B got all messages A wrote, also those written just before A closed. *)
Theorem C70_all_messages_arrive : forall CA CB sA sB, cfg_ok CA -> cfg_ok CB -> opposite CA CB ->
  reach CA whole_frames (sA, []) -> no_error (tr sA) -> inflight (T sA) = 0%nat -> reach CB one_read_at_a_time (sB, []) -> no_error (tr sB) -> connected sA sB [] ->
  received (delivered (tr sB)) = sent_messages (tr sA).
Proof.
  intros CA CB sA sB HA HB OP RA NA IF RB NB CN. unfold connected in CN. rewrite app_nil_r in CN.
  rewrite (ws_delivers_everything_received CB sB HB RB NB), CN. destruct (all_out CA sA HA RA NA IF) as (fs & W & B & F & A).
  rewrite B, OP. unfold decode. rewrite (decode_until _ fs None F A). destruct (until_prefix fs) as [r R].
  assert (A' : after_all None (until_close fs) <> None) by (apply (after_all_app _ _ r); rewrite <- R; exact A).
  unfold received. rewrite (outs_messages _ None [] A' (fun _ => eq_refl)). cbn [in_progress]. rewrite <- (proj1 (wanted_sent (tr sA))), W.
  pose proof (no_error_cbe _ _ _ _ RA NA) as CB'. destruct (reach_ordered CA HA sA [] RA CB') as [O1 O2]. destruct (reach_made CA HA sA [] RA CB') as [m1 _ _ _].
  apply (until_written _ O1 O2 fs []). rewrite app_nil_r, <- m1. exact W.
Qed.
Print Assumptions C70_all_messages_arrive.

(** No error at B has to be assumed if the transport works, B's read buffer has 125 bytes, nobody has closed, and the texts are valid UTF-8 that either is ASCII
    or is read in one piece per frame (see C22 for why this is needed). *)
Theorem C70_conversation_works : forall CA CB sA sB, cfg_ok CA -> cfg_ok CB -> opposite CA CB -> 125 <= rbsize CB ->
  reach CA whole_frames (sA, []) -> no_error (tr sA) -> close_asked (tr sA) = false -> inflight (T sA) = 0%nat -> connected sA sB [] ->
  ((Forall (Forall (fun b => b < 128)) (sent_texts (tr sA)) /\ Forall (fun b => b < 128) (sent_partial_text (tr sA)) /\ reach CB undisturbed (sB, [])) \/
   (Forall utf8_well_formed (sent_texts (tr sA)) /\ utf8_prefix (sent_partial_text (tr sA)) /\ reach CB (fun c x => undisturbed c x /\ whole c x) (sB, []))) ->
  no_error (tr sB) /\ received (delivered (tr sB)) = sent_messages (tr sA) /\ got_controls 9 (delivered (tr sB)) = sent_pings (tr sA).
Proof.
  intros CA CB sA sB HA HB OP BIG RA NA CL IF CN TX. pose proof CN as CN'. unfold connected in CN. rewrite app_nil_r in CN. destruct (all_out CA sA HA RA NA IF) as (fs & W & B & F & A).
  assert (N8 : Forall (fun f => f_op f <> 8) fs) by (apply (no_close_frames CA sA [] fs HA RA NA CL); exists []; rewrite app_nil_r; exact W).
  pose proof (valid_of fs None F A N8) as V. pose proof (controls_none fs None A N8) as NC.
  pose proof (outs_texts fs None [] A (fun _ => eq_refl)) as OT. cbn [tacc in_progress] in OT. rewrite <- W in OT. destruct (wanted_sent (tr sA)) as [W1 W2]. unfold written in W1. rewrite W1, W2 in OT.
  assert (T1 : complete_texts (frames_outs None fs) = sent_texts (tr sA)) by (unfold complete_texts; rewrite OT; reflexivity).
  assert (T2 : current_text (frames_outs None fs) = sent_partial_text (tr sA)) by (unfold current_text; rewrite OT; cbn [snd]; unfold sent_partial_text, sent_unfinished; rewrite rest_of_fold; reflexivity).
  assert (R1 : reach CB one_read_at_a_time (sB, [])) by (destruct TX as [(_ & _ & H)|(_ & _ & H)]; eapply reach_mono; try exact H; [intros c x Q; apply Q|intros c x [Q _]; apply Q]).
  assert (NB : no_error (tr sB)).
  { apply (ws_valid_stream_raises_no_error CB sB [] fs [] HB BIG V NC).
    - unfold good_texts. rewrite T1, T2. destruct TX as [(X1 & X2 & _)|(X1 & X2 & _)]; [|split; assumption]. split.
      + eapply Forall_impl; [|exact X1]. apply ascii_well_formed.
      + exists []. rewrite app_nil_r. apply ascii_well_formed, X2.
    - destruct TX as [(X1 & X2 & H)|(_ & _ & H)]; [left; split; [|exact H]|right; exact H]. apply (ascii_texts (frames_outs None fs) []); [fold (complete_texts (frames_outs None fs)); rewrite T1; exact X1|fold (current_text (frames_outs None fs)); rewrite T2; exact X2].
    - rewrite app_nil_r, OP. congruence. }
  split; [exact NB|]. split; [apply (C70_all_messages_arrive CA CB sA sB); assumption|].
  rewrite (ws_delivers_everything_received CB sB HB R1 NB), CN, B, OP. unfold decode. rewrite (decode_until _ fs None F A), (until_none fs N8), outs_controls by (lia || exact A). rewrite <- pings_wanted, W. reflexivity.
Qed.
Print Assumptions C70_conversation_works.

(** A conversation: the client sends a text in two fragments with a ping between them, the server reads it and answers the ping, the client
    reads the pong.  All hypotheses of the theorems above are met, in both directions. *)
Definition bothb (c : conf) (x : act) : bool := (wholeb c x && undisturbedb c x)%bool.
Definition both (c : conf) (x : act) : Prop := whole_frames c x /\ undisturbed c x.
Lemma bothb_ok c x : bothb c x = true -> both c x.
Proof. intros H. apply andb_prop in H. destruct H as [H1 H2]. split; [apply wholeb_ok, H1|apply undisturbedb_ok, H2]. Qed.
Definition client_acts : list act :=
  [readcall; op1; part 1 false false [72; 105]; XWritten 0] ++ ops 4 ++ [ping 2 [7]; XWritten 0] ++ ops 4 ++ [part 3 true false [33]; XWritten 0] ++ ops 4 ++
  [arrive [138; 1; 7]; op1; arrive [1; 7]; op1; arrive [7]; op1].
Definition fr (b0 b1 k0 k1 k2 k3 : N) (l : list N) : list act := [arrive (b0 :: b1 :: k0 :: k1 :: k2 :: k3 :: l); op1; arrive (b1 :: k0 :: k1 :: k2 :: k3 :: l); op1; arrive (k0 :: k1 :: k2 :: k3 :: l); op1; arrive l].
Definition server_acts : list act :=
  [readcall] ++ (firstn 1 (fr 0x01 0x82 1 2 3 4 [73; 107])) ++ ops 2 ++ skipn 2 (fr 0x01 0x82 1 2 3 4 [73; 107]) ++ [readcall] ++ ops 2 ++
    fr 0x89 0x81 1 2 3 4 [6] ++ ops 1 ++ [XWritten 0] ++ ops 5 ++ fr 0x80 0x81 1 2 3 4 [32] ++ ops 2.

Example conversation_example : exists sA sB, reach cli both (sA, []) /\ reach srv both (sB, []) /\ no_error (tr sA) /\ no_error (tr sB) /\ close_asked (tr sA) = false /\ inflight (T sA) = 0%nat /\
  opposite cli srv /\ connected sA sB [] /\ connected sB sA [] /\
  sent_messages (tr sA) = [(false, [72; 105; 33])] /\ received (delivered (tr sB)) = [(false, [72; 105; 33])] /\
  sent_pings (tr sA) = [[7]] /\ got_controls 9 (delivered (tr sB)) = [[7]] /\ got_controls 10 (delivered (tr sA)) = [[7]] /\
  Forall (Forall (fun b => b < 128)) (sent_texts (tr sA)) /\ Forall (fun b => b < 128) (sent_partial_text (tr sA)).
Proof.
  destruct (exec cli bothb start client_acts) as [[sA kA]|] eqn:EA; [|vm_compute in EA; discriminate EA].
  destruct (exec srv bothb start server_acts) as [[sB kB]|] eqn:EB; [|vm_compute in EB; discriminate EB].
  assert (HA : reach cli both (sA, kA)) by (eapply exec_reach; [exact bothb_ok|apply start_reach|exact EA]).
  assert (HB : reach srv both (sB, kB)) by (eapply exec_reach; [exact bothb_ok|apply start_reach|exact EB]).
  vm_compute in EA, EB. injection EA as <- <-. injection EB as <- <-. eexists _, _. split; [exact HA|]. split; [exact HB|].
  split; [not_there|]. split; [not_there|]. repeat (split; [reflexivity|]). split; repeat constructor.
Qed.

(** The proviso on texts is needed: a client sends the one-character text C3 A9 in one frame, its server gets the two bytes separately and fails the connection. *)
Theorem C70_text_rejected_refuted : exists sA sB kB, reach cli both (sA, []) /\ reach srv undisturbed (sB, kB) /\ no_error (tr sA) /\ close_asked (tr sA) = false /\ inflight (T sA) = 0%nat /\
  (exists onway, connected sA sB onway) /\ sent_texts (tr sA) = [[0xC3; 0xA9]] /\ utf8_well_formed [0xC3; 0xA9] /\
  (exists err reason k', kB = OHandleError err 1007 reason :: k').
Proof.
  destruct (exec cli bothb start ([readcall; op1; part 1 true false [0xC3; 0xA9]; XWritten 0] ++ ops 4)) as [[sA kA]|] eqn:EA; [|vm_compute in EA; discriminate EA].
  destruct (exec srv undisturbedb start ([readcall] ++ (firstn 1 (fr 0x81 0x82 1 2 3 4 [0xC2])) ++ ops 2 ++ skipn 2 (fr 0x81 0x82 1 2 3 4 [0xC2]))) as [[sB kB]|] eqn:EB; [|vm_compute in EB; discriminate EB].
  assert (HA : reach cli both (sA, kA)) by (eapply exec_reach; [exact bothb_ok|apply start_reach|exact EA]).
  assert (HB : reach srv undisturbed (sB, kB)) by (eapply exec_reach; [exact undisturbedb_ok|apply start_reach|exact EB]).
  vm_compute in EA, EB. injection EA as <- <-. injection EB as <- <-. eexists _, _, _. split; [exact HA|]. split; [exact HB|].
  split; [not_there|]. split; [reflexivity|]. split; [reflexivity|]. split; [exists [0xAB]; reflexivity|]. split; [reflexivity|]. split; [|eexists _, _, _; reflexivity].
  exists [0xE9]. split; [repeat constructor; left; reflexivity|reflexivity].
Qed.
Print Assumptions C70_text_rejected_refuted.
