(** C73: a websocket reading through its buffered stream, packet by packet. *)
From Verif Require Import Base Utf8Model Utf8Spec MaskModel MaskSpec EndianModel EndianSpec
  WsModel WsFrame WsSendProofs WsRecvSpec WsDecode WsFrameSpec WsCodec WsSend WsHistory WsTrace WsExec WsRecvProofs WsRecvReach WsClean WsRecvProps WsRecvProps2
  WsQueue WsOutSpec WsArrive WsWire WsOut WsOutStep WsOutReach WsOutProps WsLive WsLive2 WsRefuse WsFrames WsFrameProps WsPairSpec WsPairProofs WsPairProps WsStream WsStreamProofs.
From Verif Require BufReadModel BufReadProofs.
Open Scope N_scope.
Import BufReadModel(rbuf, rb_init, rb_unread, rb_space, rb_view, rb_consume, rb_compact, rb_store, fetch).

(** The websocket of the pair. *)
Definition sock (p : sys) : ws := fst (wc p).
(** Bytes that arrived and are not yet consumed. *)
Definition unread (p : sys) : list N := rb_view (rb p).

(** ** The composed system is an instance of the websocket alone *)

(** Whatever packets arrive, the websocket runs as [WsModel] says (so that everything proved about it holds here), and it consumes every byte that arrives
    once, in order. *)
Theorem C73_every_byte_once : forall C base P p, sreach C base P p -> reach C P (wc p) /\ del p = inp (sock p) ++ unread p.
Proof. intros C base P p H. pose proof (sreach_inv C base P p H) as V. split; [apply (v_reach _ _ _ V)|apply (v_stream _ _ _ V)]. Qed.
Print Assumptions C73_every_byte_once.

(** A transport is asked for bytes only when there is room for at least one: no request is made that can not be answered (compare buffered_stream.c 68-83). *)
Theorem C73_room_for_every_packet : forall C base P p, sreach C base P p -> wait p = true -> (0 < rb_space (rb p))%nat.
Proof. intros C base P p H. apply (v_space _ _ _ (sreach_inv C base P p H)). Qed.
Print Assumptions C73_room_for_every_packet.

(** An error handed to the websocket is one the transport reported: the buffer never is too small for what the websocket asks. *)
Theorem C73_errors_come_from_the_transport : forall C base P p ch rs e ch', sreach C base P p -> in_loop p -> choice_ok ch ->
  ws_act base p (SRound ch rs) = Some (XFire (FErr e) ch') -> (e = rs /\ rs <> CIO_SUCCESS) \/ In e (failed p).
Proof.
  intros C base P p ch rs e ch' H IL CH A. pose proof (sreach_inv C base P p H) as V. cbn [ws_act] in A. unfold round in A.
  assert (EX : forall q, snd (exit q ch) <> Some (XFire (FErr e) ch')) by (intros q; unfold exit; cbn [snd]; destruct (snd (wc q)); discriminate).
  destruct (leave p || hooked (fst (wc p)))%bool; [destruct (EX _ A)|]. destruct (rd (fst (wc p))) as [rq|] eqn:RD; [|destruct (EX _ A)].
  destruct (Z.eqb_spec (lerr p) CIO_SUCCESS) as [LE|LE]; cbn [negb] in A.
  2:{ cbn [snd] in A. injection A as A _. subst e. right. destruct (v_lerr _ _ _ V) as [X|X]; [congruence|exact X]. }
  destruct (satisfied rq (rb_unread (rb p))) eqn:SA; [discriminate A|].
  destruct (Nat.eqb (rb_space (rb p)) 0 && Nat.eqb (fetch (rb p)) 0)%bool eqn:FU.
  { apply andb_prop in FU. destruct FU as [F1 F2]. apply Nat.eqb_eq in F1, F2. pose proof (v_rd _ _ _ V) as G. rewrite RD in G.
    rewrite (full_satisfies C rq (rb p) G (v_wf _ _ _ V) (v_size _ _ _ V) F1 F2) in SA. discriminate. }
  destruct (Z.eqb_spec rs CIO_SUCCESS) as [RS|RS]; [destruct (EX _ A)|]. cbn [snd] in A. injection A as A _. left. split; [congruence|exact RS].
Qed.
Print Assumptions C73_errors_come_from_the_transport.

(** ** Progress *)

(** Once everything that has arrived is worked off, an application that waits for a message waits for its peer: a read is in progress, there is room for what comes,
    and what is buffered is not enough to go on with - or a pong is being written and the next request comes with its completion. *)
Theorem C73_waits_only_for_missing_bytes : forall C base p, cfg_ok C -> sreach C base proper p -> at_rest p -> read_open (tr (sock p)) -> no_error (tr (sock p)) ->
  peer_closed (tr (sock p)) = false -> hooked (sock p) = false ->
  (exists rq, rd (sock p) = Some rq /\ wait p = true /\ (0 < rb_space (rb p))%nat /\ satisfied rq (length (unread p)) = false) \/
  inflight (T (sock p)) = 1%nat.
Proof.
  intros C base p HC H [K LP] RO NE PC HK. pose proof (sreach_inv C base _ p H) as V. destruct p as [[s k] b d w e l lv fl]. unfold sock, unread in *. cbn [wc fst snd rb del wait lerr loop leave failed] in *. subst k l.
  pose proof (v_reach _ _ _ V) as RV. cbn [wc] in RV. pose proof (no_error_cbe _ _ _ _ RV NE) as CB.
  destruct (C54_waits_for_peer_or_write C s HC RV RO NE PC) as [(rq & RD & _)|[X _]]; [left|right; exact X]. exists rq. split; [exact RD|].
  pose proof (v_prog _ _ _ V rq RD) as PR. cbn [wc fst snd rb wait loop] in PR. destruct PR as [[W SA]|[X|[X|[X|[X|X]]]]]; try discriminate; try congruence; [|destruct X].
  pose proof (v_space _ _ _ V W) as SP. pose proof (BufReadProofs.view_length _ _ (v_wf _ _ _ V)) as VL. cbn [rb] in *. rewrite VL. auto.
Qed.
Print Assumptions C73_waits_only_for_missing_bytes.

(** ** Messages *)

(** [p] has received the beginning of what A has handed to its stream. *)
Definition receives (sA : ws) (p : sys) (onway : list N) : Prop := del p ++ onway = bytes_sent (tr sA).

Lemma receives_connected C base P sA p onway : sreach C base P p -> receives sA p onway -> connected sA (sock p) (unread p ++ onway).
Proof. intros H R. unfold connected, receives in *. rewrite <- R, (v_stream _ _ _ (sreach_inv C base P p H)), <- app_assoc. reflexivity. Qed.

(** The packets in which A's bytes arrive do not matter: what B's application gets are the first messages A wrote, and the first pings, in order. *)
Theorem C73_messages_arrive_in_order : forall CA CB base sA kA p onway, cfg_ok CA -> cfg_ok CB -> opposite CA CB ->
  reach CA whole_frames (sA, kA) -> no_error (tr sA) -> sreach CB base one_read_at_a_time p -> receives sA p onway ->
  prefix (received (delivered (tr (sock p)))) (sent_messages (tr sA)) /\ prefix (got_controls 9 (delivered (tr (sock p)))) (sent_pings (tr sA)).
Proof.
  intros CA CB base sA kA p onway HA HB OP RA NA H R. pose proof (receives_connected _ _ _ _ _ _ H R) as CN.
  assert (RB : reach CB one_read_at_a_time (sock p, snd (wc p))) by (unfold sock; rewrite <- surjective_pairing; apply (v_reach _ _ _ (sreach_inv _ _ _ _ H))).
  split; [exact (C70_messages_arrive_in_order CA CB sA kA (sock p) (snd (wc p)) _ HA HB OP RA NA RB CN)|exact (C70_pings_arrive_in_order CA CB sA kA (sock p) (snd (wc p)) _ HA HB OP RA NA RB CN)].
Qed.
Print Assumptions C73_messages_arrive_in_order.

(** What is left in the buffer when the websocket waits is the beginning of a frame: behind complete frames nothing is left. *)
Lemma dec_ext_stay sv m f k n l : forall got, (length got + length l < n)%nat -> dec_run sv (DExt m f k n got) l = (DExt m f k n (got ++ l), []).
Proof.
  induction l as [|b l IH]; intros got L; cbn [dec_run dec length] in *; [rewrite app_nil_r; reflexivity|].
  rewrite app_length. cbn [length]. destruct (Nat.eqb_spec (length got + 1) n) as [E|E]; [lia|]. rewrite IH by (rewrite app_length; cbn [length]; lia). rewrite <- app_assoc. reflexivity.
Qed.
Lemma dec_key_stay sv m f k n l : forall got, (length got + length l < 4)%nat -> dec_run sv (DKey m f k n got) l = (DKey m f k n (got ++ l), []).
Proof.
  induction l as [|b l IH]; intros got L; cbn [dec_run dec length] in *; [rewrite app_nil_r; reflexivity|].
  rewrite app_length. cbn [length]. destruct (Nat.eqb_spec (length got + 1) 4) as [E|E]; [lia|]. rewrite IH by (rewrite app_length; cbn [length]; lia). rewrite <- app_assoc. reflexivity.
Qed.
Lemma dec_payload_stay sv m f k len key l : forall got, N.of_nat (length got + length l) < len -> exists got' o, dec_run sv (DPayload m f k len key got) l = (DPayload m f k len key got', o).
Proof.
  induction l as [|b l IH]; intros got L; cbn [dec_run dec length] in *; [eexists _, _; reflexivity|].
  rewrite app_length. cbn [length]. destruct (N.eqb_spec (N.of_nat (length got + 1)) len) as [E|E]; [lia|].
  edestruct IH as (g & o & X); [|rewrite X; eexists _, _; reflexivity]. rewrite app_length. cbn [length]. lia.
Qed.
Lemma stuck C rq r d l : Rel C rq r d -> satisfied rq (length l) = false -> l <> [] -> forall m, fst (dec_run (is_server C) d l) <> DHead m.
Proof.
  intros RL SA NE m. assert (LP : (0 < length l)%nat) by (destruct l; [congruence|cbn; lia]). unfold satisfied in SA.
  assert (ONE : rq_most rq = false -> rq_n rq = 1 -> False) by (intros M E; rewrite M, E in SA; apply N.leb_gt in SA; lia).
  unfold Rel in RL. destruct (rq_cb rq).
  - destruct RL as (M & E & _). destruct (ONE M E).
  - destruct RL as (M & E & _). destruct (ONE M E).
  - destruct RL as (M & E & X). rewrite M, E in SA. apply N.leb_gt in SA. destruct X as [(mm & f & bin & -> & _)|(-> & _)]; [rewrite dec_ext_stay by (cbn [length]; lia)|rewrite dec_run_failed]; discriminate.
  - destruct RL as (M & E & X). rewrite M, E in SA. apply N.leb_gt in SA. destruct X as [(mm & f & bin & -> & _)|(-> & _)]; [rewrite dec_ext_stay by (cbn [length]; lia)|rewrite dec_run_failed]; discriminate.
  - destruct RL as (M & E & _ & X). rewrite M, E in SA. apply N.leb_gt in SA. destruct X as [(mm & f & kd & len & -> & _)|(-> & _)]; [rewrite dec_key_stay by (cbn [length]; lia)|rewrite dec_run_failed]; discriminate.
  - destruct RL as (E & P & X). destruct (rq_most rq) eqn:M; [apply Nat.ltb_ge in SA; lia|]. rewrite E in SA. apply N.leb_gt in SA.
    destruct X as [(mm & f & kd & len & key & got & -> & _ & _ & _ & RM & _ & _ & _ & _ & KD)|(-> & _)]; [|rewrite dec_run_failed; discriminate].
    destruct kd as [bin|op]; [congruence|]. destruct KD as [_ ->]. cbn [length] in RM. destruct (dec_payload_stay (is_server C) mm f (KControl op) len key l []) as (g & o & Y); [cbn [length]; lia|]. rewrite Y. discriminate.
Qed.

(** The transport at B works: writes are accepted and complete without error, and no read failed. *)
Definition writes_work (x : act) : Prop := match x with XFire _ ch => write_works ch | _ => transport_works x end.

Lemma round_failed C base P p ch rs q o : sreach C base P p -> round base p ch rs = (q, o) -> failed q = [] -> failed p = [] /\ (forall e ch', o <> Some (XFire (FErr e) ch')).
Proof.
  intros H RO F. pose proof (sreach_inv _ _ _ _ H) as V. unfold round, exit in RO.
  destruct (leave p || hooked (fst (wc p)))%bool; [injection RO as <- <-; split; [exact F|intros; destruct (snd (wc p)); discriminate]|].
  destruct (rd (fst (wc p))) as [rq|] eqn:RD; [|injection RO as <- <-; split; [exact F|intros; destruct (snd (wc p)); discriminate]].
  destruct (Z.eqb_spec (lerr p) CIO_SUCCESS) as [LE|LE]; cbn [negb] in RO.
  2:{ injection RO as <- <-. destruct (v_lerr _ _ _ V) as [Y|Y]; [congruence|]. rewrite F in Y. destruct Y. }
  destruct (satisfied rq (rb_unread (rb p))) eqn:SA; [injection RO as <- <-; split; [exact F|intros; discriminate]|].
  destruct (Nat.eqb (rb_space (rb p)) 0 && Nat.eqb (fetch (rb p)) 0)%bool eqn:FU.
  { apply andb_prop in FU. destruct FU as [F1 F2]. apply Nat.eqb_eq in F1, F2. pose proof (v_rd _ _ _ V) as G. rewrite RD in G.
    rewrite (full_satisfies C rq (rb p) G (v_wf _ _ _ V) (v_size _ _ _ V) F1 F2) in SA. discriminate. }
  destruct (Z.eqb rs CIO_SUCCESS); injection RO as <- <-; [split; [exact F|intros; cbn; destruct (snd (wc p)); discriminate]|discriminate F].
Qed.
Lemma failed_grows C base P p x p' : sreach C base P p -> senabled p x -> sstep C base p x = Ret p' -> failed p' = [] -> failed p = [] /\ (forall e ch, ws_act base p x <> Some (XFire (FErr e) ch)).
Proof.
  intros H EN ST F.
  assert (WS : forall q y q', ws_step C q y = Ret q' -> failed q' = failed q).
  { intros q y q' X. unfold ws_step in X. destruct (step C (wc q) y); cbn [obind] in X; [|discriminate]. destruct (rb_consume _ _); cbn [obind] in X; [|discriminate]. injection X as <-. reflexivity. }
  destruct x as [y|ch rs|bs|err]; cbn [sstep ws_act] in *.
  - rewrite (WS _ _ _ ST) in F. split; [exact F|]. intros e ch X. injection X as ->. destruct EN as (_ & _ & []).
  - destruct (round base p ch rs) as [q o] eqn:RO. apply (round_failed C base P p ch rs q o H RO). destruct o; [rewrite (WS _ _ _ ST) in F; exact F|injection ST as <-; exact F].
  - injection ST as <-. split; [exact F|]. intros e ch X. discriminate X.
  - injection ST as <-. discriminate F.
Qed.
Definition no_failure (P : conf -> act -> Prop) (c : conf) (x : act) : Prop := P c x /\ match x with XFire (FErr _) _ => False | _ => True end.
Lemma unfailed C base P p : sreach C base P p -> failed p = [] -> sreach C base (no_failure P) p.
Proof.
  induction 1 as [g m|p x p' HR IH EN PY ST]; intros F; [apply sreach_init; assumption|].
  destruct (failed_grows _ _ _ _ _ _ HR EN ST F) as [F0 NE]. apply (sreach_step _ _ _ p x p'); [apply IH, F0|exact EN| |exact ST].
  intros y Y. split; [apply PY, Y|]. destruct y as [| |[|e] ch| |]; try exact I. destruct (NE _ _ Y).
Qed.
Lemma sreach_mono C base (P Q : conf -> act -> Prop) p : (forall c x, P c x -> Q c x) -> sreach C base P p -> sreach C base Q p.
Proof. intros X H. induction H; [apply sreach_init; assumption|eapply sreach_step; eauto]. Qed.

Lemma peer_close_delivered t : peer_closed t = true -> exists x, In (OutControl 8 x) (delivered t).
Proof.
  induction t as [|e t IH]; intros H; [discriminate H|]. unfold peer_closed in *. cbn [existsb delivered] in *. apply orb_prop in H. destruct H as [H|H].
  - destruct e; try discriminate H. cbn [peer_ev] in H. apply N.eqb_eq in H. subst. exists data. apply in_or_app. right. left. reflexivity.
  - destruct (IH H) as [x X]. exists x. apply in_or_app. left. exact X.
Qed.

(** Rules of conduct for B's application, and a stream that takes what is written. *)
Definition conduct (c : conf) (x : act) : Prop := proper c x /\ writes_work x /\ no_close_call x.
Lemma conduct_undisturbed c x : no_failure conduct c x -> undisturbed c x.
Proof.
  intros [(P & W & NC) F]. split; [apply proper_reads, P|]. split; [|exact NC]. destruct x as [ch|a ch|[e|ad v] ch|e|e]; cbn [transport_works writes_work] in *; auto.
Qed.

(** End to end: A wrote messages (and pings), everything it handed to its stream has reached B in packets of any sizes, and B, back in its event loop, asks for more. Then B got
    every message - with no byte left over in its buffer and no error - provided B's buffer holds 125 bytes and the texts are ASCII or are read in one piece per frame. *)
Theorem C73_conversation_works : forall CA CB base sA p, cfg_ok CA -> cfg_ok CB -> opposite CA CB -> 125 <= rbsize CB ->
  reach CA whole_frames (sA, []) -> no_error (tr sA) -> close_asked (tr sA) = false -> inflight (T sA) = 0%nat ->
  receives sA p [] -> failed p = [] -> at_rest p -> read_open (tr (sock p)) -> inflight (T (sock p)) = 0%nat -> hooked (sock p) = false ->
  ((Forall (Forall (fun b => b < 128)) (sent_texts (tr sA)) /\ Forall (fun b => b < 128) (sent_partial_text (tr sA)) /\ sreach CB base conduct p) \/
   (Forall utf8_well_formed (sent_texts (tr sA)) /\ utf8_prefix (sent_partial_text (tr sA)) /\ sreach CB base (fun c x => conduct c x /\ whole c x) p)) ->
  no_error (tr (sock p)) /\ unread p = [] /\ received (delivered (tr (sock p))) = sent_messages (tr sA) /\ got_controls 9 (delivered (tr (sock p))) = sent_pings (tr sA).
Proof.
  intros CA CB base sA p HA HB OP BIG RA NA CL IF RC FL AR RO IFB HK TX.
  assert (H : sreach CB base conduct p) by (destruct TX as [(_ & _ & H)|(_ & _ & H)]; [exact H|eapply sreach_mono; [|exact H]; intros c x [X _]; exact X]).
  pose proof (unfailed _ _ _ _ H FL) as HU. pose proof (receives_connected _ _ _ _ _ _ H RC) as CN. rewrite app_nil_r in CN.
  destruct (all_out CA sA HA RA NA IF) as (fs & W & B & F & A).
  assert (N8 : Forall (fun f => f_op f <> 8) fs) by (apply (no_close_frames CA sA [] fs HA RA NA CL); exists []; rewrite app_nil_r; exact W).
  pose proof (valid_of fs None F A N8) as V. pose proof (controls_none fs None A N8) as NC.
  pose proof (outs_texts fs None [] A (fun _ => eq_refl)) as OT. cbn [tacc in_progress] in OT. rewrite <- W in OT. destruct (wanted_sent (tr sA)) as [W1 W2]. unfold written in W1. rewrite W1, W2 in OT.
  assert (T1 : complete_texts (frames_outs None fs) = sent_texts (tr sA)) by (unfold complete_texts; rewrite OT; reflexivity).
  assert (T2 : current_text (frames_outs None fs) = sent_partial_text (tr sA)) by (unfold current_text; rewrite OT; cbn [snd]; unfold sent_partial_text, sent_unfinished; rewrite rest_of_fold; reflexivity).
  assert (EQ : inp (sock p) ++ unread p = enc_frames (is_server CB) fs) by (unfold connected in CN; rewrite CN, B, OP; reflexivity).
  assert (PR : forall Q, sreach CB base Q p -> reach CB Q (sock p, [])) by (intros Q X; destruct AR as [K _]; pose proof (v_reach _ _ _ (sreach_inv _ _ _ _ X)) as Y; unfold sock; rewrite <- K, <- surjective_pairing; exact Y).
  assert (NB : no_error (tr (sock p))).
  { apply (ws_valid_stream_raises_no_error CB (sock p) [] fs (unread p) HB BIG V NC).
    - unfold good_texts. rewrite T1, T2. destruct TX as [(X1 & X2 & _)|(X1 & X2 & _)]; [|split; assumption]. split.
      + eapply Forall_impl; [|exact X1]. apply ascii_well_formed.
      + exists []. rewrite app_nil_r. apply ascii_well_formed, X2.
    - destruct TX as [(X1 & X2 & X)|(_ & _ & X)].
      + left. split.
        * apply (ascii_texts (frames_outs None fs) []); [fold (complete_texts (frames_outs None fs)); rewrite T1; exact X1|fold (current_text (frames_outs None fs)); rewrite T2; exact X2].
        * eapply reach_mono; [exact conduct_undisturbed|apply PR, HU].
      + right. eapply reach_mono; [|apply PR, (unfailed _ _ _ _ X FL)]. intros c x [[Y1 Y2] Y3]. split; [apply conduct_undisturbed; split; assumption|exact Y2].
    - exact EQ. }
  assert (RP : reach CB proper (sock p, [])) by (eapply reach_mono; [|apply PR, H]; intros c x Q; apply Q).
  assert (R1 : reach CB one_read_at_a_time (sock p, [])) by (eapply reach_mono; [exact proper_reads|exact RP]).
  assert (PC : peer_closed (tr (sock p)) = false).
  { destruct (peer_closed (tr (sock p))) eqn:PC; [exfalso|reflexivity]. destruct (peer_close_delivered _ PC) as [x X]. apply (NC x).
    pose proof (ws_delivers_only_what_was_sent CB (sock p) [] HB R1) as [r1 P1]. destruct (decode_prefix (is_server CB) (inp (sock p)) (unread p)) as [r2 P2]. rewrite EQ in P2.
    unfold decode in P2. destruct (dec_frames (is_server CB) fs None V) as (d & D & _). rewrite D in P2. cbn [snd] in P2. rewrite P2. apply in_or_app. left. unfold decode in P1. rewrite P1. apply in_or_app. left. exact X. }
  assert (UN : unread p = []).
  { assert (HP : sreach CB base proper p) by (eapply sreach_mono; [|exact H]; intros c x Q; apply Q).
    destruct (C73_waits_only_for_missing_bytes CB base p HB HP AR RO NB PC HK) as [(rq & RD & _ & _ & SA)|X]; [|congruence].
    destruct (unread p) as [|b l] eqn:U; [reflexivity|exfalso]. pose proof (i_rel _ _ _ (reach_inv CB HB (sock p) [] R1) rq (or_introl RD)) as RL.
    destruct (after_all None fs) as [m'|] eqn:AF; [|congruence]. pose proof (dec_frames_open (is_server CB) fs None m' V N8 AF) as D. rewrite <- EQ, dec_run_app in D.
    apply (f_equal fst) in D. cbn [fst] in D. revert D. apply (stuck CB rq (R (sock p))); [exact RL|exact SA|discriminate]. }
  split; [exact NB|]. split; [exact UN|]. assert (CN' : connected sA (sock p) []) by (rewrite <- UN; exact CN).
  split; [apply (C70_all_messages_arrive CA CB sA (sock p)); assumption|].
  rewrite UN, app_nil_r in EQ. rewrite (ws_delivers_everything_received CB (sock p) HB R1 NB), EQ. unfold decode. rewrite (decode_until _ fs None F A), (until_none fs N8), outs_controls by (lia || exact A). rewrite <- pings_wanted, W. reflexivity.
Qed.
Print Assumptions C73_conversation_works.

(** ** Runs *)
Definition senabledb (p : sys) (x : sact) : bool :=
  match x with
  | SWs y => (negb (in_loopb p) && enabledb (wc p) y && match y with XFire _ _ => false | _ => true end)%bool
  | SRound ch _ => (in_loopb p && choice_okb ch)%bool
  | SDeliver bs => (Nat.eqb (length (snd (wc p))) 0 && negb (loop p) && wait p && negb (hooked (fst (wc p))) && negb (Nat.eqb (length bs) 0) && bytes_okb bs && Nat.leb (length bs) (rb_space (rb p)))%bool
  | SFail e => (Nat.eqb (length (snd (wc p))) 0 && negb (loop p) && wait p && negb (hooked (fst (wc p))) && negb (Z.eqb e 0))%bool
  end.
Lemma in_loopb_ok p : in_loopb p = true <-> in_loop p.
Proof. unfold in_loopb, in_loop. destruct (snd (wc p)) as [|[] k]; split; intros H; auto; try discriminate; destruct H. Qed.
Lemma senabledb_ok p x : senabledb p x = true -> senabled p x.
Proof.
  assert (K0 : forall k : list op, Nat.eqb (length k) 0 = true -> k = []) by (intros [|? ?] H; [reflexivity|discriminate]).
  destruct x as [y|ch rs|bs|e]; cbn [senabledb senabled]; intros H; repeat (apply andb_prop in H; destruct H as [H ?]); unfold at_rest;
    repeat match goal with X : negb _ = true |- _ => apply negb_true_iff in X end.
  - split; [intros X; apply in_loopb_ok in X; congruence|]. split; [apply enabledb_ok; assumption|]. destruct y; auto. discriminate.
  - split; [apply in_loopb_ok; assumption|apply choice_okb_ok; assumption].
  - split; [split; [apply K0|]; assumption|]. split; [assumption|]. split; [assumption|]. split; [intros ->; discriminate|]. split; [apply bytes_okb_ok; assumption|apply Nat.leb_le; assumption].
  - split; [split; [apply K0|]; assumption|]. split; [assumption|]. split; [assumption|]. intros ->. discriminate.
Qed.
Section X.
Variable C : cfg.
Variable base : nat.
Variable Pb : conf -> act -> bool.
Fixpoint srun (p : sys) (l : list sact) : option sys :=
  match l with
  | [] => Some p
  | x :: r => if (senabledb p x && match ws_act base p x with Some y => Pb (wc p) y | None => true end)%bool
              then match sstep C base p x with Ret p' => srun p' r | UB => None end else None
  end.
Lemma srun_reach (P : conf -> act -> Prop) l : (forall c x, Pb c x = true -> P c x) -> forall p p', sreach C base P p -> srun p l = Some p' -> sreach C base P p'.
Proof.
  intros HP. induction l as [|x r IH]; intros p p' Hp H; cbn in H; [congruence|].
  destruct (senabledb p x && _)%bool eqn:E; [|discriminate]. destruct (sstep C base p x) as [p1|] eqn:S; [|discriminate].
  apply andb_prop in E. destruct E as [E1 E2]. refine (IH p1 p' _ H). eapply sreach_step; [exact Hp|apply senabledb_ok, E1| |exact S]. intros y Y. rewrite Y in E2. apply HP, E2.
Qed.
(** A scheduler: rounds and pending operations until the event loop is reached or the fuel is used up; in its read handler the application asks for more,
    and writes complete at once. *)
Fixpoint settle (fuel : nat) (p : sys) : list sact :=
  match fuel with
  | O => []
  | S n => let go x := match sstep C base p x with Ret p' => x :: settle n p' | UB => [] end in
           if in_loopb p then go (SRound ch0 0) else match snd (wc p) with
           | [] => if Nat.ltb 0 (inflight (T (fst (wc p)))) then go (SWs (XWritten 0)) else []
           | OUser :: _ => if may_read (tr (fst (wc p))) then go (SWs readcall) else go (SWs op1)
           | _ => go (SWs op1) end
  end.
End X.
Definition conductb (c : conf) (x : act) : bool :=
  (properb c x && undisturbedb c x)%bool.
Lemma conductb_ok c x : conductb c x = true -> conduct c x.
Proof.
  intros H. apply andb_prop in H. destruct H as [H1 H2]. destruct (undisturbedb_ok c x H2) as (_ & W & N). split; [apply properb_ok, H1|]. split; [|exact N].
  destruct x; try exact W. exact (proj1 W).
Qed.
Definition srv125 : cfg := Cfg true 125 MaskModel.LittleEndian 8.
Definition begin : sys := sys_init junk0 (repeat 0 125).
Lemma begin_reach P : sreach srv125 0 P begin.
Proof. apply sreach_init; try reflexivity; repeat constructor. Qed.
(** What the transport and the application do, and after each of it all that follows. *)
Fixpoint feed (p : sys) (l : list sact) : option sys :=
  match l with
  | [] => Some p
  | x :: r => match srun srv125 0 conductb p [x] with
              | Some p1 => match srun srv125 0 conductb p1 (settle srv125 0 60 p1) with Some q => feed q r | None => None end
              | None => None
              end
  end.
Lemma feed_reach l : forall p p', sreach srv125 0 conduct p -> feed p l = Some p' -> sreach srv125 0 conduct p'.
Proof.
  induction l as [|x r IH]; intros p p' H E; cbn [feed] in E; [congruence|]. destruct (srun _ _ _ p [x]) as [p1|] eqn:E1; [|discriminate].
  destruct (srun srv125 0 conductb p1 _) as [q|] eqn:E2; [|discriminate].
  refine (IH q p' _ E). refine (srun_reach _ _ _ _ _ conductb_ok _ _ _ E2). exact (srun_reach _ _ _ _ _ conductb_ok _ _ H E1).
Qed.

(** A client sends the text Hi! in two fragments with a ping in between; a server with a buffer of 125 bytes gets it in packets of one byte, and in two packets. *)
Definition talk : list act := [part 1 false false [72; 105]; XWritten 0] ++ ops 4 ++ [ping 2 [7]; XWritten 0] ++ ops 4 ++ [part 3 true false [33]; XWritten 0] ++ ops 4.
Definition talk_bytes : list N := [0x01; 0x82; 1; 2; 3; 4; 73; 107; 0x89; 0x81; 1; 2; 3; 4; 6; 0x80; 0x81; 1; 2; 3; 4; 32].
Ltac fed l :=
  destruct (exec cli bothb start talk) as [[sA kA]|] eqn:EA; [|vm_compute in EA; discriminate EA];
  destruct (feed begin (SWs readcall :: l)) as [p|] eqn:EB; [|vm_compute in EB; discriminate EB];
  assert (HA : reach cli both (sA, kA)) by (eapply exec_reach; [exact bothb_ok|apply start_reach|exact EA]);
  pose proof (feed_reach _ _ _ (begin_reach conduct) EB) as HB; vm_compute in EA, EB; injection EA as <- <-; injection EB as <-; eexists _, _; (split; [exact HA|]); (split; [exact HB|]).
Example one_byte_packets : exists sA p, reach cli both (sA, []) /\ sreach srv125 0 conduct p /\ no_error (tr sA) /\ close_asked (tr sA) = false /\ inflight (T sA) = 0%nat /\
  receives sA p [] /\ failed p = [] /\ at_rest p /\ read_open (tr (sock p)) /\ inflight (T (sock p)) = 0%nat /\ hooked (sock p) = false /\ no_error (tr (sock p)) /\
  Forall (Forall (fun b => b < 128)) (sent_texts (tr sA)) /\ Forall (fun b => b < 128) (sent_partial_text (tr sA)) /\
  received (delivered (tr (sock p))) = [(false, [72; 105; 33])] /\ wait p = true.
Proof.
  fed (map (fun b => SDeliver [b]) talk_bytes). split; [not_there|]. repeat (split; [reflexivity|]). split; [split; reflexivity|]. repeat (split; [reflexivity|]).
  split; [not_there|]. split; [repeat constructor|]. split; [repeat constructor|]. split; reflexivity.
Qed.
Example two_packets : exists sA p, reach cli both (sA, []) /\ sreach srv125 0 conduct p /\ receives sA p [] /\ at_rest p /\ unread p = [] /\
  received (delivered (tr (sock p))) = [(false, [72; 105; 33])] /\ got_controls 9 (delivered (tr (sock p))) = [[7]].
Proof. fed [SDeliver (firstn 11 talk_bytes); SDeliver (skipn 11 talk_bytes)]. repeat (split; [reflexivity|]). split; [split; reflexivity|]. repeat split; reflexivity. Qed.
(** In between, part of a frame is waiting. *)
Example half_a_frame : exists p, sreach srv125 0 conduct p /\ at_rest p /\ unread p = [1; 2; 3] /\ rd (sock p) = Some (RReq CbMask false 4) /\ wait p = true /\ received (delivered (tr (sock p))) = [].
Proof.
  destruct (feed begin (SWs readcall :: map (fun b => SDeliver [b]) (firstn 5 talk_bytes))) as [p|] eqn:EB; [|vm_compute in EB; discriminate EB].
  pose proof (feed_reach _ _ _ (begin_reach conduct) EB) as HB. vm_compute in EB. injection EB as <-. eexists. split; [exact HB|]. split; [split; reflexivity|]. repeat split; reflexivity.
Qed.

(** For texts with characters of more than one byte the packets do matter (see C22): the text C3 A9, sent in one frame, is refused when its two bytes come in two packets. *)
Theorem C73_packets_matter_for_text_refuted : exists sA p, reach cli both (sA, []) /\ sreach srv125 0 conduct p /\ no_error (tr sA) /\ close_asked (tr sA) = false /\ inflight (T sA) = 0%nat /\
  sent_texts (tr sA) = [[0xC3; 0xA9]] /\ utf8_well_formed [0xC3; 0xA9] /\ failed p = [] /\ (exists onway, receives sA p onway) /\ ~ no_error (tr (sock p)).
Proof.
  destruct (exec cli bothb start ([part 1 true false [0xC3; 0xA9]; XWritten 0] ++ ops 4)) as [[sA kA]|] eqn:EA; [|vm_compute in EA; discriminate EA].
  destruct (feed begin (SWs readcall :: map (fun b => SDeliver [b]) [0x81; 0x82; 1; 2; 3; 4; 0xC2])) as [p|] eqn:EB; [|vm_compute in EB; discriminate EB].
  assert (HA : reach cli both (sA, kA)) by (eapply exec_reach; [exact bothb_ok|apply start_reach|exact EA]).
  pose proof (feed_reach _ _ _ (begin_reach conduct) EB) as HB. vm_compute in EA, EB. injection EA as <- <-. injection EB as <-. eexists _, _. split; [exact HA|]. split; [exact HB|].
  split; [not_there|]. repeat (split; [reflexivity|]). split. { exists [0xE9]. split; [repeat constructor; left; reflexivity|reflexivity]. }
  split; [reflexivity|]. split; [exists [0xAB]; reflexivity|]. intros X. cbn in X. eapply X. cbn. tauto.
Qed.
Print Assumptions C73_packets_matter_for_text_refuted.
