(** Lemmas for C74. *)
From Verif Require Import Base Utf8Model Utf8Spec MaskModel MaskSpec EndianModel EndianSpec
  WsModel WsFrame WsSendProofs WsRecvSpec WsDecode WsFrameSpec WsCodec WsSend WsHistory WsTrace WsExec WsRecvProofs WsRecvReach WsClean WsRecvProps
  WsQueue WsOutSpec WsArrive WsWire WsOut WsOutStep WsOutReach WsOutProps WsLive WsLive2 WsRefuse WsOutStream.
From Verif Require BufWriteModel BufWriteSpec BufWriteProps.
Import BufWriteModel(wst, wh, phase, accepted, wphase, WFirst, WLater, WReported, WRejected, tev, TSync, TDone, w_run, w_enabled, w_step).
Open Scope N_scope.

Section P.
Variable C : cfg.

Definition same (s s' : ws) : Prop := sends (tr s') = sends (tr s) /\ inflight (T s') = inflight (T s).
Definition sent (ch : choice) (s s' : ws) : Prop :=
  exists n c, sends (tr s') = sends (tr s) ++ [(n, c)] /\ inflight (T s') = (inflight (T s) + match ch_write ch with WPending => 1 | _ => 0 end)%nat.
Definition puts (ch : choice) (s s' : ws) : Prop := same s s' \/ (first (T s) = None /\ sent ch s s').
Lemma puts_pre ch s s1 s' : same s s1 -> first (T s1) = first (T s) -> puts ch s1 s' -> puts ch s s'.
Proof. intros [A B] F [[X Y]|(X & n & c & Y & Z)]; [left; split; congruence|right; split; [congruence|]]. exists n, c. split; congruence. Qed.
Ltac qs := left; split; [unfold sends; cbn; rewrite ?app_nil_r; reflexivity|reflexivity].
Ltac ss := split; [unfold sends; cbn; rewrite ?app_nil_r; reflexivity|reflexivity].

Lemma frame_sent s n len ch s' r : send_frame C s n len ch = Ret (s', r) -> sent ch s s'.
Proof.
  unfold send_frame. destruct (jwbh (jobs (T s) n)) as [c|]; [|discriminate].
  assert (W : forall s0 c0 sh s1 r1, bs_write s0 n c0 sh ch = (s1, r1) -> same s s0 -> sent ch s s1).
  { intros s0 c0 sh s1 r1 H [A B]. exists n, c0. unfold bs_write in H.
    destruct (ch_write ch); injection H as <- <-; (split; [unfold sends in *; cbn; rewrite A; reflexivity|cbn; cbn in B; lia]). }
  intros H. destruct (jcont (jobs (T s) n)).
  - destruct (is_server C); [apply ret_inj in H; apply (W _ _ _ _ _ H); ss|]. binv H. destruct a as [c' mask']. binv H. apply ret_inj in H. apply (W _ _ _ _ _ H). ss.
  - destruct (is_server C); [apply ret_inj in H; apply (W _ _ _ _ _ H); ss|]. binv H. destruct a as [c' mask']. apply ret_inj in H. apply (W _ _ _ _ _ H). destruct (N.ltb _ _); ss.
Qed.
Lemma enq_puts s n len ch kerr s' os : enqueue_job C s n len ch kerr = Ret (s', os) -> puts ch s s'.
Proof.
  unfold enqueue_job. destruct (first (T s)) eqn:F; intros H.
  - destruct (last (T s)); [|discriminate]. injection H as <- <-. qs.
  - binv H. destruct a as [s1 r]. apply frame_sent in E. right. split; [exact F|]. destruct E as (m & c & X & Y). exists m, c.
    cbn [fst snd] in H. destruct r; injection H as <- <-; (split; [exact X|exact Y]).
Qed.
Lemma read_puts s cb most n msg s' os ch : bs_read C s cb most n msg = (s', os) -> puts ch s s'.
Proof. unfold bs_read. destruct (_ && _)%bool; intros H; injection H as <- <-; qs. Qed.
Lemma dequeue_inflight t n t' : dequeue_job t = (n, t') -> inflight t' = inflight t.
Proof. unfold dequeue_job. destruct (first t); [destruct (opt_eqb _ _)|]; intros H; injection H as <- <-; reflexivity. Qed.

Lemma op_puts s o ch s' os : run_op C s o ch = Ret (s', os) -> same s s' \/ (sent ch s s' /\ ((exists n, o = OMsgNext (Some n)) \/ exists code reason, o = OErrClose code reason)).
Proof.
  intros H. destruct o; cbn [run_op] in H.
  - injection H as <- <-; qs.
  - injection H as <- <-; qs.
  - destruct (cbe s); injection H as <- <-; qs.
  - destruct (dequeue_job (T s)) as [[n|] t] eqn:D; injection H as <- <-; left; split; try reflexivity; cbn; eapply dequeue_inflight, D.
  - apply enq_puts in H. destruct H as [H|[_ H]]; [left|right].
    + destruct H as [A B]. split; [rewrite A; unfold sends; cbn; rewrite ?app_nil_r; reflexivity|rewrite B; reflexivity].
    + split; [|right; eauto]. destruct H as (n & c & A & B). exists n, c. split; [rewrite A; unfold sends; cbn; rewrite ?app_nil_r; reflexivity|rewrite B; reflexivity].
  - destruct (hasrh s); injection H as <- <-; qs.
  - injection H as <- <-; qs.
  - binv H. destruct a as [[t n] c]. assert (I0 : inflight t = inflight (T s)).
    { unfold write_jobs_popfront in E. destruct (dequeue_job (T s)) as [[m|] t1] eqn:D; [|discriminate]. destruct (jwbh (jobs t1 m)); [|discriminate]. injection E as <- <- <-. cbn. eapply dequeue_inflight, D. }
    destruct sh; [destruct (jhandler _); [|discriminate]|..]; injection H as <- <-; left; split; try reflexivity; exact I0.
  - unfold call_handler in H. destruct h as [[id|]|]; injection H as <- <-; qs.
  - unfold call_handler in H. destruct (jhandler (jobs (T s) JClose)) as [[id|]|]; injection H as <- <-; qs.
  - destruct j as [n|]; [|injection H as <- <-; qs]. destruct (jwbh (jobs (T s) n)); [|discriminate]. binv H. destruct a as [s1 r]. apply frame_sent in E. right. split; [|left; eauto].
    cbn [fst snd] in H. destruct r; injection H as <- <-; exact E.
  - destruct (negb _); [injection H as <- <-; qs|]. apply ret_inj in H. destruct (read_puts _ _ _ _ _ _ _ ch H) as [X|[_ X]]; [left; exact X|]. exfalso. clear - H X. destruct X as (n & c & X & _).
    unfold bs_read in H. destruct (_ && _)%bool; injection H as <- <-; cbn in X; apply (f_equal (@length _)) in X; rewrite app_length in X; cbn in X; lia.
  - injection H as <- <-; qs.
  - injection H as <- <-; qs.
Qed.
Ltac pp H := apply enq_puts in H; refine (puts_pre _ _ _ _ _ _ H); [ss|reflexivity].
Lemma call_puts s a ch s' os : call C s a ch = Ret (s', os) -> puts ch s s'.
Proof.
  intros H. unfold call, refuse in H. destruct a as [|id flen p lf bin|id p|id p|id p|id code reason].
  - destruct (_ =? 0); apply ret_inj in H; apply (read_puts _ _ _ _ _ _ _ ch) in H; (refine (puts_pre _ _ _ _ _ _ H); [ss|reflexivity]).
  - destruct id as [id|]; [|injection H as <- <-; qs]. destruct (jwbh _); [injection H as <- <-; qs|].
    destruct (if fragw _ then _ else _) as [kind fw]. pp H.
  - pp H.
  - unfold write_ping_or_pong, refuse in H. destruct id as [id|]; [|injection H as <- <-; qs]. destruct (negb _); [injection H as <- <-; qs|].
    destruct (jwbh _); [injection H as <- <-; qs|]. destruct p; [|discriminate]. pp H.
  - unfold write_ping_or_pong, refuse in H. destruct id as [id|]; [|injection H as <- <-; qs]. destruct (negb _); [injection H as <- <-; qs|].
    destruct (jwbh _); [injection H as <- <-; qs|]. destruct p; [|discriminate]. pp H.
  - destruct id as [id|]; [|injection H as <- <-; qs]. destruct (jwbh _); [injection H as <- <-; qs|].
    destruct (negb _); [injection H as <- <-; qs|]. destruct (negb _); [injection H as <- <-; qs|]. pp H.
Qed.
Lemma frame_puts s addr data ch s' os : handle_frame C s addr data ch = Ret (s', os) -> puts ch s s'.
Proof.
  intros H. unfold handle_frame in H. binv H. clear E data. rename a into data.
  destruct (N.eqb (opcode (R s)) BINARY_FRAME).
  { unfold handle_binary_frame in H. binv H. injection H as <- <-. destruct (N.eqb (rem (R s)) 0); [injection E as <-; qs|]; binv E; injection E as <-; qs. }
  destruct (N.eqb (opcode (R s)) TEXT_FRAME).
  { unfold handle_text_frame in H. binv H. destruct a as [u st]. destruct (_ || _)%bool; [injection H as <- <-; qs|].
    binv H. injection H as <- <-. clear - E0. destruct (fin (R s)); destruct (N.eqb _ 0); try (injection E0 as <-; qs); binv E0; injection E0 as <-; qs. }
  destruct (N.eqb (opcode (R s)) PING_FRAME). { unfold handle_ping_frame in H. destruct (Nat.ltb 125 _); [discriminate|]. pp H. }
  destruct (N.eqb (opcode (R s)) PONG_FRAME). { apply ret_inj in H. apply (read_puts _ _ _ _ _ _ _ ch) in H; (refine (puts_pre _ _ _ _ _ _ H); [ss|reflexivity]). }
  destruct (N.eqb (opcode (R s)) CLOSE_FRAME).
  { unfold handle_close_frame in H. binv H. destruct a; [injection H as <- <-; qs|]. cbn [log selfc] in H. destruct (selfc s); [injection H as <- <-; qs|]. pp H. }
  injection H as <- <-. qs.
Qed.
Lemma payload_puts s ch s' os : read_payload C s ch = Ret (s', os) -> puts ch s s'.
Proof.
  intros H. unfold read_payload in H. destruct (N.ltb 0 (rem (R s))).
  - destruct (N.ltb SIZE_MAX _); [injection H as <- <-; qs|apply ret_inj in H; apply (read_puts _ _ _ _ _ _ _ ch H)].
  - apply frame_puts in H; exact H.
Qed.
Lemma mask_or_payload_puts s ch s' os : get_mask_or_payload C s ch = Ret (s', os) -> puts ch s s'.
Proof. intros H. unfold get_mask_or_payload in H. destruct (is_server C); [apply ret_inj in H; apply (read_puts _ _ _ _ _ _ _ ch H)|apply payload_puts in H; exact H]. Qed.

Lemma fire_puts s rq f ch s' os : fire C s rq f ch = Ret (s', os) -> puts ch s s'.
Proof.
  intros H. unfold fire in H. binv H. destruct a as [s2 os2]. injection H as <- <-. cbn [fst snd].
  set (s1 := set_cbrun (set_rd s None) (S (cbrun s))) in *.
  enough (X : puts ch s1 s2) by (refine (puts_pre _ _ _ _ _ _ X); [ss|reflexivity]).
  clearbody s1. clear s.
  destruct f as [err|addr view]; [injection E as <- <-; unfold read_error; destruct (Z.eqb err CIO_EOF); qs|].
  set (num := if rq_most rq then _ else _) in E. clearbody num.
  destruct (rq_cb rq).
  - unfold get_header in E. destruct view as [|b view]; [discriminate|]. destruct (Nat.ltb _ _) eqn:Q; [discriminate|].
    match type of E with (if ?b then _ else _) = _ => destruct b end; [injection E as <- <-; qs|].
    destruct (handle_fin _ _); [injection E as <- <-; qs|]. apply ret_inj in E. apply (read_puts _ _ _ _ _ _ _ ch) in E; (refine (puts_pre _ _ _ _ _ _ E); [ss|reflexivity]).
  - unfold get_first_length in E. destruct view as [|b view]; [discriminate|]. destruct (Nat.ltb _ _) eqn:Q; [discriminate|]. cbv zeta in E.
    match type of E with (if ?b then _ else _) = _ => destruct b end; [injection E as <- <-; qs|].
    match type of E with (if ?b then _ else _) = _ => destruct b end; [apply mask_or_payload_puts in E; (refine (puts_pre _ _ _ _ _ _ E); [ss|reflexivity])|].
    match type of E with (if ?b then _ else _) = _ => destruct b end; [injection E as <- <-; qs|].
    match type of E with (if ?b then _ else _) = _ => destruct b end; apply ret_inj in E; apply (read_puts _ _ _ _ _ _ _ ch) in E; (refine (puts_pre _ _ _ _ _ _ E); [ss|reflexivity]).
  - unfold get_length in E. destruct (Nat.ltb 2 num || _)%bool eqn:Q; [discriminate|]. cbv zeta in E.
    destruct (N.ltb SIZE_MAX _); [injection E as <- <-; qs|]. apply mask_or_payload_puts in E; (refine (puts_pre _ _ _ _ _ _ E); [ss|reflexivity]).
  - unfold get_length in E. destruct (Nat.ltb 8 num || _)%bool eqn:Q; [discriminate|]. cbv zeta in E.
    destruct (N.ltb SIZE_MAX _); [injection E as <- <-; qs|]. apply mask_or_payload_puts in E; (refine (puts_pre _ _ _ _ _ _ E); [ss|reflexivity]).
  - unfold get_mask in E. destruct (Nat.ltb 4 num || _)%bool eqn:Q; [discriminate|]. apply payload_puts in E. (refine (puts_pre _ _ _ _ _ _ E); [ss|reflexivity]).
  - unfold get_payload in E. destruct (is_control_frame _).
    + destruct (Nat.ltb _ _) eqn:Q; [discriminate|]. apply frame_puts in E. (refine (puts_pre _ _ _ _ _ _ E); [ss|reflexivity]).
    + destruct (Nat.ltb _ _) eqn:Q; [discriminate|]. apply frame_puts in E. (refine (puts_pre _ _ _ _ _ _ E); [ss|reflexivity]).
Qed.

(** One step of the websocket hands at most one chain to the stream, and only when no write is in progress. *)
Lemma step_puts s k x s' k' : step C (s, k) x = Ret (s', k') -> (forall e, x <> XWritten e) -> enabled (s, k) x ->
  same s s' \/ (sent (choice_of x) s s' /\
    ((first (T s) = None /\ (k = [] \/ exists k0, k = OUser :: k0 \/ k = OFire :: k0)) \/ (exists n k0, k = OMsgNext (Some n) :: k0) \/ (exists code reason k0, k = OErrClose code reason :: k0))).
Proof.
  intros H NW EN. destruct x as [ch|a ch|f ch|err|err]; cbn [step choice_of enabled] in *.
  - destruct k as [|o k0]; [injection H as <- _; left; split; reflexivity|]. unfold lift in H. binv H. destruct a as [s1 o1]. injection H as <- _.
    apply op_puts in E. destruct E as [X|[X [[n ->]|(c & r & ->)]]]; [left; exact X|right; split; [exact X|right; left; eauto]|right; split; [exact X|right; right; eauto]].
  - unfold lift in H. binv H. destruct a0 as [s1 o1]. injection H as <- _. apply call_puts in E. destruct E as [X|[F X]]; [left; exact X|right; split; [exact X|left; split; [exact F|]]].
    destruct EN as [[-> | [k0 ->]] _]; [left; reflexivity|right; eauto].
  - destruct EN as (K & _ & _ & _ & rq & RD & _). rewrite RD in H. unfold lift in H. binv H. destruct a as [s1 o1]. injection H as <- _. apply fire_puts in E. destruct E as [X|[F X]]; [left; exact X|right; split; [exact X|left; split; [exact F|]]].
    destruct K as [-> | [k0 ->]]; [left; reflexivity|right; eauto].
  - destruct (NW err eq_refl).
  - injection H as <- _. left. split; reflexivity.
Qed.

Lemma written_same s k e s' k' : step C (s, k) (XWritten e) = Ret (s', k') -> sends (tr s') = sends (tr s) /\ inflight (T s') = pred (inflight (T s)).
Proof. cbn [step]. intros H. injection H as <- _. split; reflexivity. Qed.

Lemma step_no_error s k x s' k' P : reach C P (s, k) -> step C (s, k) x = Ret (s', k') -> no_error (tr s') -> no_error (tr s).
Proof.
  intros HR H N. destruct (history C _ _ _ HR) as (PP & _). apply step_grow in H. destruct H as [G|(ch & err & code & reason & k0 & _ & _ & _ & _ & E & _)].
  - destruct (G PP) as (_ & (es & E & _) & _). intros e r I. apply (N e r). rewrite E. apply in_or_app. right. exact I.
  - intros e r I. apply (N e r). rewrite E. right. exact I.
Qed.
Hypothesis HC : cfg_ok C.
Lemma send_when_idle s k x s' k' : reach C proper (s, k) -> no_error (tr s) -> enabled (s, k) x -> (forall e, x <> XWritten e) -> step C (s, k) x = Ret (s', k') ->
  same s s' \/ (sent (choice_of x) s s' /\ inflight (T s) = 0%nat).
Proof.
  intros HR N EN NW H. destruct (step_puts _ _ _ _ _ H NW EN) as [X|[X W]]; [left; exact X|right; split; [exact X|]].
  pose proof (no_error_cbe _ _ _ _ HR N) as CB. destruct (reach_out C HC s k HR) as (q & B & I). rewrite CB in I. destruct I as [V|[(o & k2 & K & EO) _]].
  - pose proof (n_tok _ _ _ _ _ _ V) as TK. destruct W as [[F K]|[(n & k0 & ->)|(c & r & k0 & ->)]].
    + assert (q = []) as -> by exact (rep_nil _ _ (b_rep _ _ _ _ B) F).
      destruct K as [-> | [k0 [-> | ->]]]; lia.
    + cbn [nnext filter is_next length] in TK. unfold nnext in TK. cbn [filter is_next length] in TK. destruct q; lia.
    + pose proof (n_top _ _ _ _ _ _ V) as TP. destruct TP.
  - exfalso. subst k. destruct W as [[_ [W|(k0 & [W|W])]]|[(n & k0 & W)|(c & r & k0 & W)]]; try discriminate W; injection W as -> _; destruct EO.
Qed.
End P.
