(** What the application sees of the receiving side (C20-C25). *)
From Verif Require Import Base Utf8Model Utf8Spec Utf8Proofs MaskModel MaskSpec EndianModel EndianSpec EndianProofs
  WsModel WsFrame WsSendProofs WsRecvSpec WsDecode WsTrace WsRecvProofs WsRecvReach WsVerdict WsHistory WsFrameSpec WsCodec WsHeaderSpec WsSend WsClean WsExec.
From Coq Require String.
Import String.StringSyntax.
Delimit Scope string_scope with string.
Open Scope N_scope.

(** No error was reported to the application. *)
Definition no_error (t : list ev) : Prop := forall err reason, ~ In (EvError err reason) t.
Definition prefix {A} (a b : list A) : Prop := exists rest, b = a ++ rest.

Lemma no_error_cbe C P s k : reach C P (s, k) -> no_error (tr s) -> cbe s = false.
Proof. intros H NE. destruct (cbe s) eqn:B; [|reflexivity]. destruct (failed_reported C P s k H B) as (e & r & I). destruct (NE _ _ I). Qed.

(** * C20 *)

(** Whatever was received, and however it was cut: what the application got is a
    prefix of what RFC 6455 says the received bytes mean, and back in the event
    loop nothing is missing, unless the connection was failed. *)
Theorem ws_delivers_only_what_was_sent : forall C s k, cfg_ok C -> reach C one_read_at_a_time (s, k) ->
  prefix (delivered (tr s)) (snd (decode (is_server C) (inp s))).
Proof. intros C s k HC H. destruct (i_pre _ _ _ (reach_inv C HC s k H)) as (rest & E & _). exists rest. exact E. Qed.
Print Assumptions ws_delivers_only_what_was_sent.

Theorem ws_delivers_everything_received : forall C s, cfg_ok C -> reach C one_read_at_a_time (s, []) ->
  no_error (tr s) -> delivered (tr s) = snd (decode (is_server C) (inp s)).
Proof.
  intros C s HC H NE. destruct (i_pre _ _ _ (reach_inv C HC s [] H)) as (rest & E & [-> | [B | B]]); [rewrite app_nil_r in E; auto| |discriminate B].
  rewrite (no_error_cbe _ _ _ _ H NE) in B. discriminate.
Qed.
Print Assumptions ws_delivers_everything_received.

(** The same in terms of frames: if the peer sends [fs], and [inp s] is what has
    been read of it so far. *)
Theorem ws_valid_frames_delivered_in_order : forall C s k fs unread, cfg_ok C -> reach C one_read_at_a_time (s, k) ->
  valid_frames None fs -> inp s ++ unread = enc_frames (is_server C) fs -> prefix (delivered (tr s)) (frames_outs None fs).
Proof.
  intros C s k fs unread HC H V E. destruct (ws_delivers_only_what_was_sent C s k HC H) as [r R0].
  destruct (dec_frames (is_server C) fs None V) as (d & D & _). rewrite <- E in D. rewrite dec_run_app in D. injection D as _ D.
  fold (decode (is_server C) (inp s)) in D. rewrite R0 in D. exists (r ++ snd (dec_run (is_server C) (fst (decode (is_server C) (inp s))) unread)).
  rewrite <- D. symmetry. apply app_assoc.
Qed.
Print Assumptions ws_valid_frames_delivered_in_order.

Theorem ws_valid_frames_delivered_completely : forall C s fs, cfg_ok C -> reach C one_read_at_a_time (s, []) ->
  valid_frames None fs -> inp s = enc_frames (is_server C) fs -> no_error (tr s) -> delivered (tr s) = frames_outs None fs.
Proof.
  intros C s fs HC H V E NE. rewrite (ws_delivers_everything_received C s HC H NE), E.
  destruct (dec_frames (is_server C) fs None V) as (d & D & _). unfold decode. rewrite D. reflexivity.
Qed.
Print Assumptions ws_valid_frames_delivered_completely.

(** And the hypothesis "no error" is met by itself: a valid stream without close
    frame, a working transport, read buffer of at least 125 bytes, texts that are
    well-formed, and either ASCII only or each frame arriving in one piece
    (see C22 for why this last condition is needed). *)
Theorem ws_valid_stream_raises_no_error : forall C s k fs unread, cfg_ok C -> 125 <= rbsize C ->
  valid_frames None fs -> no_close (frames_outs None fs) -> good_texts (frames_outs None fs) ->
  (ascii_only (frames_outs None fs) /\ reach C undisturbed (s, k) \/ reach C (fun c x => undisturbed c x /\ whole c x) (s, k)) ->
  inp s ++ unread = enc_frames (is_server C) fs -> no_error (tr s).
Proof.
  intros C s k fs unread HC BIG V NC GT RH E err reason I.
  assert (X : exists P, reach C P (s, k) /\ clean s k).
  { destruct RH as [[A H] | H].
    - exists undisturbed. split; [exact H|]. apply (valid_stream_clean C HC BIG True fs s k V NC GT (fun _ => A)); [|exists unread; exact E].
      eapply reach_mono; [|exact H]. intros c x Q. split; [exact Q|left; exact Logic.I].
    - eexists. split; [exact H|]. apply (valid_stream_clean C HC BIG False fs s k V NC GT); [intros []| |exists unread; exact E].
      eapply reach_mono; [|exact H]. intros c x [Q1 Q2]. split; [exact Q1|right; exact Q2]. }
  destruct X as (P & H & [c1 _ _ _]). rewrite (reported_failed C P s k err reason H I) in c1. discriminate.
Qed.
Print Assumptions ws_valid_stream_raises_no_error.

Lemma undisturbed_one_read C s k : reach C undisturbed (s, k) -> reach C one_read_at_a_time (s, k).
Proof. intros H. eapply reach_mono; [|exact H]. intros c x Q. apply Q. Qed.

Theorem ws_ascii_stream_delivered_exactly : forall C s fs, cfg_ok C -> 125 <= rbsize C ->
  valid_frames None fs -> no_close (frames_outs None fs) -> good_texts (frames_outs None fs) -> ascii_only (frames_outs None fs) ->
  reach C undisturbed (s, []) -> inp s = enc_frames (is_server C) fs -> delivered (tr s) = frames_outs None fs.
Proof.
  intros C s fs HC BIG V NC GT A H E. apply (ws_valid_frames_delivered_completely C s fs); try assumption; [apply undisturbed_one_read, H|].
  eapply (ws_valid_stream_raises_no_error C s [] fs []); try eassumption; [left; split; assumption|rewrite app_nil_r; exact E].
Qed.
Print Assumptions ws_ascii_stream_delivered_exactly.

(** * C21 *)
Ltac pick := solve [assumption | reflexivity | lia | discriminate | congruence | eexists; reflexivity | left; pick | right; pick | match goal with |- _ /\ _ => split; pick end | match goal with |- In _ _ => cbn; tauto end].
Lemma header_violation_fails : forall sv m b0 b1, b0 < 256 -> b1 < 256 ->
  (fst (dec_run sv (DHead m) [b0; b1]) = DFailed <-> header_violates sv m b0 b1).
Proof.
  intros sv m b0 b1 B0 B1. cbn [dec_run dec].
  assert (FL : forall d, fst (let '(d1, o1) := dec sv d b1 in (d1, o1 ++ [])) = fst (dec sv d b1)) by (intros d; destruct (dec sv d b1); reflexivity).
  assert (X : fst (dec sv (dec_head m b0) b1) = DFailed <-> header_violates sv m b0 b1).
  2:{ destruct (dec sv (dec_head m b0) b1) as [d2 o2]. exact X. }
  assert (LEN : forall mm f k l, fst (dec_len sv mm f k l) <> DFailed).
  { intros mm f k l. unfold dec_len, dec_start, dec_end. destruct sv; [discriminate|]. destruct (l =? 0); [|discriminate]. destruct k; [discriminate|]. cbn. destruct (op =? 8); discriminate. }
  assert (L : forall mm f k, fst (dec sv (DLen mm f k) b1) = DFailed <->
     (128 <= b1 <-> sv = false) \/ (125 < b1 mod 128 /\ exists o, k = KControl o)).
  { intros mm f k. cbn [dec]. destruct (N.leb_spec 128 b1), sv; cbn [Bool.eqb negb fst]; try (split; [intros _; left; split; intros; auto; congruence||lia|reflexivity]).
    all: (destruct (N.leb_spec (b1 mod 128) 125); [split; [intros Z; destruct (LEN _ _ _ _ Z)|intros [Z|[Z _]]; [exfalso; destruct Z as [Z1 Z2]; first [discriminate (Z1 H)|specialize (Z2 eq_refl); lia]|lia]]|]).
    all: (destruct k; cbn [fst]; [split; [discriminate|intros [Z|[_ [o Z]]]; [exfalso; destruct Z as [Z1 Z2]; first [discriminate (Z1 H)|specialize (Z2 eq_refl); lia]|discriminate]]|split; [intros _; right; eauto|reflexivity]]). }
  unfold dec_head, header_violates. destruct (N.eqb_spec ((b0 / 16) mod 8) 0) as [RS|RS]; cbn [negb]; [|split; [intros _; left; exact RS|reflexivity]].
  assert (OP : b0 mod 16 < 16) by (apply N.mod_lt; discriminate).
  destruct (b0 mod 16) as [|p] eqn:Q; [|do 4 (try destruct p as [p|p|]); try (exfalso; lia)].
  all: destruct m as [mb|]; cbn [N.eqb Pos.eqb]; try (destruct (N.leb_spec 128 b0)); try rewrite L; cbn [fst dec]; split; intros HH;
    repeat match goal with
           | H : _ \/ _ |- _ => destruct H
           | H : _ /\ _ |- _ => destruct H
           | H : exists _, _ |- _ => destruct H
           | H : In _ _ |- _ => cbn in H
           | H : KControl _ = KControl _ |- _ => injection H as H
           end; try congruence; try lia; try reflexivity; try discriminate.
  all: pick.
Qed.
Print Assumptions header_violation_fails.

(** After any valid frames, a frame whose first two bytes violate the protocol is
    not delivered, nor anything after it, ever; and back in the event loop the
    error has been reported, unless the rest of a frame with a reserved opcode is
    still being read. *)
Theorem ws_violation_is_never_delivered : forall C s k fs m b0 b1 rest, cfg_ok C -> reach C one_read_at_a_time (s, k) ->
  valid_frames None fs -> Forall (fun f => f_op f <> 8) fs -> after_all None fs = Some m ->
  b0 < 256 -> b1 < 256 -> header_violates (is_server C) m b0 b1 ->
  inp s = enc_frames (is_server C) fs ++ b0 :: b1 :: rest ->
  prefix (delivered (tr s)) (frames_outs None fs) /\
  (k = [] -> (exists err reason, In (EvError err reason) (tr s)) \/ (exists rq, rd s = Some rq)).
Proof.
  intros C s k fs m b0 b1 rest HC H V NC A B0 B1 HV E.
  assert (D : decode (is_server C) (inp s) = (DFailed, frames_outs None fs)).
  { apply header_violation_fails in HV; [|assumption..]. unfold decode. rewrite E, dec_run_app, (dec_frames_open _ _ _ _ V NC A). cbn [fst snd].
    change (b0 :: b1 :: rest) with ([b0; b1] ++ rest). rewrite dec_run_app, HV, dec_run_failed. cbn [fst snd]. rewrite app_nil_r.
    enough (O : snd (dec_run (is_server C) (DHead m) [b0; b1]) = []) by (rewrite O, app_nil_r; reflexivity).
    revert HV. cbn [dec_run dec]. destruct (dec (is_server C) (dec_head m b0) b1) as [d2 o2] eqn:DD. cbn [fst snd app]. rewrite app_nil_r. intros ->.
    destruct (dec_head m b0) as [mm|mm f kd|mm f kd todo got|mm f kd len got|mm f kd len key got| |] eqn:DH; cbn [dec] in DD; try discriminate DD; try (injection DD as _ <-; reflexivity); try (injection DD as <-; reflexivity).
    1:{ destruct (negb _); [injection DD as <-; reflexivity|]. destruct (_ <=? _).
      + exfalso. revert DD. unfold dec_len, dec_start, dec_end. destruct (is_server C); [discriminate|]. destruct (_ =? _); [|discriminate]. destruct kd as [|o]; [discriminate|]. destruct (o =? 8); discriminate.
      + destruct kd; [discriminate|injection DD as <-; reflexivity]. }
    all: exfalso; revert DH; unfold dec_head; (destruct (negb _); [discriminate|]); (destruct (b0 mod 16) as [|p]; [destruct m; discriminate|]);
      do 4 (try destruct p as [p|p|]); try discriminate; destruct m as [[|]|]; try discriminate; destruct (128 <=? b0); discriminate. }
  pose proof (reach_inv C HC s k H) as I. split.
  - destruct (i_pre _ _ _ I) as (r & E1 & _). rewrite D in E1. exists r. exact E1.
  - intros ->. destruct (i_fail _ _ _ I) as [X | [X | X]]; [rewrite D; reflexivity| | |discriminate X].
    + right. destruct (rd s) as [rq|]; [eauto|discriminate].
    + left. eapply failed_reported; [exact H|exact X].
Qed.
Print Assumptions ws_violation_is_never_delivered.

(** The error raised is a protocol error with status 1002. *)
Theorem ws_violation_fails_with_1002 : forall C s k addr view ch s' k', cfg_ok C -> 125 <= rbsize C -> reach C one_read_at_a_time (s, k) ->
  enabled (s, k) (XFire (FData addr view) ch) -> step C (s, k) (XFire (FData addr view) ch) = Ret (s', k') ->
  fst (decode (is_server C) (inp s')) = DFailed -> rd s' = None ->
  exists reason, k' = OHandleError CIO_PROTOCOL_NOT_SUPPORTED 1002 reason :: OBsReturn :: k.
Proof.
  intros C s k addr view ch s' k' HC BIG H (_ & _ & _ & _ & rq & RD & FO) ST DF RN. cbn [step] in ST. rewrite RD in ST. unfold lift in ST. binv ST.
  destruct a as [s1 os]. injection ST as -> <-. destruct (fire_verdict C HC s k rq addr view ch s' os (reach_inv C HC s k H) RD FO E) as (os' & -> & VD).
  destruct VD as [V1 [V2|V2] _|reason -> _|? ? ? ? ? _ [V2 _] _ _ _|? ? ? ? _ V2 _ _|? ? _ _ [V2|V2]]; try congruence; try lia.
  - rewrite RN in V2. discriminate.
  - exists reason. cbn. reflexivity.
Qed.
Print Assumptions ws_violation_fails_with_1002.


Lemma close_payload C s code reason h sh ch : close_size (prepare_close_job C s code (Some reason) h sh ch) = N.of_nat (2 + length (firstn 123 reason)) /\
  jobs (T (prepare_close_job C s code (Some reason) h sh ch)) JClose =
    Job (jnext (jobs (T s) JClose)) (Some [(ch_addr ch, be_bytes 2 code ++ firstn 123 reason)]) h 8 true (jcont (jobs (T s) JClose)) sh.
Proof.
  assert (E : jobs (T (prepare_close_job C s code (Some reason) h sh ch)) JClose = Job (jnext (jobs (T s) JClose)) (Some [(ch_addr ch, be_bytes 2 code ++ firstn 123 reason)]) h 8 true (jcont (jobs (T s) JClose)) sh).
  { unfold prepare_close_job. cbn [T set_T set_job set_jobs jobs]. rewrite upd_same. rewrite htobe_memory. change 65536 with (256 ^ N.of_nat 2). rewrite be_bytes_mod.
    change (125 - 2)%nat with 123%nat. unfold CLOSE_FRAME.
    assert (X : firstn (Nat.min (length reason) 123) reason = firstn 123 reason); [|rewrite X; reflexivity].
    destruct (Nat.le_gt_cases (length reason) 123).
    - rewrite Nat.min_l by assumption. rewrite !firstn_all2 by lia. reflexivity.
    - rewrite Nat.min_r by lia. reflexivity. }
  split; [|exact E]. unfold close_size. rewrite E. cbn [jwbh]. unfold total_size, chain_bytes. cbn [map concat snd]. rewrite app_nil_r, app_length, be_bytes_length. reflexivity.
Qed.

(** What failing the connection does when nothing else is waiting to be sent:
    report the error, then send one close frame with that status and (the first
    123 bytes of) the reason. *)
Theorem ws_failure_sends_close_frame : forall C P s k err code reason ch1 ch2 ch3, cfg_ok C -> reach C P (s, OHandleError err code reason :: k) ->
  cbe s = false -> first (T s) = None -> choice_ok ch3 -> code < 65536 -> bytes_ok reason ->
  exists c1 c2 s3 k3 sent jb len, step C (s, OHandleError err code reason :: k) (XOp ch1) = Ret c1 /\ step C c1 (XOp ch2) = Ret c2 /\
    step C c2 (XOp ch3) = Ret (s3, k3) /\
    tr s3 = EvSend JClose sent :: EvAccept JClose jb len :: EvError err reason :: tr s /\
    chain_bytes sent = enc_frame (negb (is_server C)) (Frame true 8 (ch_key ch3) (be_bytes 2 code ++ firstn 123 reason)).
Proof.
  intros C P s k err code reason ch1 ch2 ch3 HC H CB F (K1 & K2 & K3) CO BR.
  destruct (history C P s _ H) as ((PP & _) & _).
  cbn [step run_op]. rewrite CB. eexists _, _. unfold lift. cbn [obind fst snd app].
  set (s1 := log (set_cbe s) (EvError err reason)).
  assert (D : dequeue_job (T s1) = (None, T s1)) by (unfold dequeue_job; cbn [T s1 log set_cbe]; rewrite F; reflexivity).
  set (s2 := set_T s1 (T s1)).
  set (s3 := prepare_close_job C s2 code (Some reason) None SHCloseImmediate ch3). destruct (close_payload C s2 code reason None SHCloseImmediate ch3) as [CS CJ]. fold s3 in CS, CJ.
  assert (CP : jcont (jobs (T s2) JClose) = false) by (apply PP; discriminate). rewrite CP in CJ. clear CP.
  set (s4 := accept_close s3). assert (T4 : T s4 = T s3) by reflexivity.
  set (s5 := set_T s4 (set_last (set_first (T s4) (Some JClose)) (Some JClose))).
  assert (J5 : jobs (T s5) JClose = jobs (T s3) JClose) by reflexivity.
  destruct (send_first C HC s5 JClose [(ch_addr ch3, be_bytes 2 code ++ firstn 123 reason)] (close_size s4) ch3) as (t & SF & _).
  { rewrite J5, CJ. reflexivity. } { rewrite J5, CJ. reflexivity. } { rewrite J5, CJ. reflexivity. }
  { change (close_size s4) with (close_size s3). rewrite CS. pose proof (firstn_le_length 123 reason). change (2 ^ 64) with 18446744073709551616. lia. }
  { split; [exact K1|split; [exact K2|exact K3]]. }
  { unfold chain_bytes. cbn [map concat snd]. rewrite app_nil_r. apply bytes_ok_app. split; [apply be_bytes_ok|apply Forall_forall; intros z IZ; revert z IZ; apply Forall_forall; rewrite <- (firstn_skipn 123 reason) in BR; apply Forall_app in BR; apply BR]. }
  assert (EQ : enqueue_job C s4 JClose (close_size s4) ch3 (fun _ => [OClose]) =
    obind (send_frame C s5 JClose (close_size s4) ch3) (fun r => match snd r with
      | SPending => Ret (fst r, []) | SSync sh e => Ret (fst r, [OStream sh e])
      | SErr e => Ret (fst r, OHandleError e CLOSE_INTERNAL_ERROR (bytes_of_string "Could not send frame"%string) :: [OClose]) end)).
  { unfold enqueue_job. cbn [first T s4 accept_close log s3 prepare_close_job set_T set_job set_jobs s2 s1 set_cbe]. rewrite F. reflexivity. }
  rewrite SF in EQ. cbn [obind] in EQ.
  set (sent := sent_first C [(ch_addr ch3, be_bytes 2 code ++ firstn 123 reason)] 8 true (close_size s4) ch3).
  assert (SE : chain_bytes sent = enc_frame (negb (is_server C)) (Frame true 8 (ch_key ch3) (be_bytes 2 code ++ firstn 123 reason))).
  { unfold sent. rewrite sent_first_bytes. unfold enc_frame, f_len. cbn [f_fin f_op f_key f_payload]. unfold chain_bytes at 1 2. cbn [map concat snd]. rewrite app_nil_r.
    change (close_size s4) with (close_size s3). rewrite CS, app_length, be_bytes_length. reflexivity. }
  assert (W : exists s6 o6, (exists j6 l6, tr s6 = EvSend JClose sent :: EvAccept JClose j6 l6 :: tr s2) /\
    enqueue_job C s4 JClose (close_size s4) ch3 (fun _ => [OClose]) = Ret (s6, o6)).
  { rewrite EQ. rewrite J5, CJ. cbn [jtype jlast jsh]. fold sent. unfold bs_write. destruct (ch_write ch3); cbn [fst snd]; eexists _, _; (split; [|reflexivity]); eexists _, _; reflexivity. }
  destruct W as (s6 & o6 & (j6 & l6 & TR) & W). exists s6, (o6 ++ k), sent. eexists _, _.
  split; [reflexivity|]. split. { cbn [step run_op]. fold s1. unfold lift. rewrite D. cbn [obind fst snd app]. reflexivity. }
  split. { change (lift (enqueue_job C s4 JClose (close_size s4) ch3 (fun _ => [OClose])) k = Ret (s6, o6 ++ k)). rewrite W. cbn [lift obind fst snd]. reflexivity. }
  split; [exact TR|exact SE].
Qed.
Print Assumptions ws_failure_sends_close_frame.
