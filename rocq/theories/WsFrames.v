(** C29 and C19: which frames go out, stated with what the application asked for. *)
From Verif Require Import Base Utf8Model MaskModel MaskSpec MaskProofs EndianModel EndianSpec EndianProofs
  WsModel WsFrame WsSendProofs WsRecvSpec WsDecode WsFrameSpec WsCodec WsSend WsHistory WsTrace WsExec WsRecvProofs WsRecvReach WsClean WsRecvProps WsRecvProps2
  WsQueue WsOutSpec WsArrive WsWire WsOut WsOutStep WsOutReach WsOutProps WsRefuse.
Open Scope N_scope.
Set Warnings "-unused-intro-pattern".

(** * What should be sent *)

(** A frame without its masking key: FIN, opcode, payload. *)
Definition item := (bool * N * list N)%type.
Definition content (f : frame) : item := (f_fin f, f_op f, f_payload f).
(** Is a fragmented message unfinished after these frames?  (Control frames do not matter.) *)
Definition unfinished (l : list item) : bool := fold_left (fun m (x : item) => if snd (fst x) <? 8 then negb (fst (fst x)) else m) l false.

Definition pbytes (p : option chain) : list N := match p with Some c => chain_bytes c | None => [] end.
(** The frame an accepted call or a received control frame asks for; [m]: a message is unfinished. *)
Definition wish (m : bool) (e : ev) : list item :=
  match e with
  | EvCall (AFirst _ _ p lastf bin) => [(lastf, if m then 0 else if bin then 2 else 1, pbytes p)]
  | EvCall (APing _ p) => [(true, 9, pbytes p)]
  | EvCall (AClose _ code reason) => [(true, 8, be_bytes 2 code ++ match reason with Some r => firstn 123 r | None => [] end)]
  | EvControl 9 data => [(true, 10, data)]
  | EvControl 8 data => [(true, 8, match data with [] => be_bytes 2 1000 | _ => firstn 125 data end)]
  | _ => []
  end.
(** The frames the history asks for (histories are kept newest first; an accepted write follows its cause). *)
Fixpoint wanted (t : list ev) : list item :=
  match t with
  | EvAccept _ _ _ :: ((e :: r) as r') => wanted r' ++ wish (unfinished (wanted r')) e
  | _ :: r => wanted r
  | [] => []
  end.

(** Rules of conduct: those of [proper], and every frame is written with one call. *)
Definition whole_frames (c : conf) (x : act) : Prop :=
  proper c x /\
  match x with
  | XApi (AFirst _ flen p _ _) _ => flen = N.of_nat (length (pbytes p)) /\ flen < 2 ^ 63
  | XApi (ACont _ _) _ => False
  | _ => True
  end.

(** * Proofs *)
Definition item_of (a : ent) : item := (jlast (ent_job a), jtype (ent_job a), payload (ent_job a)).
Definition whole_ent (a : ent) : Prop :=
  jcont (ent_job a) = false /\ ent_len a = N.of_nat (length (payload (ent_job a))) /\ ent_len a < 2 ^ 63.
Definition fits (m : bool) (x : item) : Prop :=
  let '(f, o, p) := x in
  (m = true /\ o = 0) \/ (m = false /\ (o = 1 \/ o = 2)) \/ ((o = 8 \/ o = 9 \/ o = 10) /\ f = true /\ (length p <= 125)%nat).
Definition next (m : bool) (x : item) : bool := if snd (fst x) <? 8 then negb (fst (fst x)) else m.
Fixpoint seq_ok (m : bool) (l : list item) : Prop := match l with [] => True | x :: r => fits m x /\ seq_ok (next m x) r end.
Lemma seq_snoc l : forall m x, seq_ok m l -> fits (fold_left next l m) x -> seq_ok m (l ++ [x]).
Proof. induction l as [|y l IH]; intros m x H F; cbn in *; [split; [exact F|exact I]|]. destruct H as [H1 H2]. split; [exact H1|]. apply IH; assumption. Qed.
Lemma seq_app l : forall m r, seq_ok m (l ++ r) -> seq_ok m l.
Proof. induction l as [|y l IH]; intros m r H; cbn in *; [exact I|]. destruct H as [H1 H2]. split; [exact H1|eapply IH; exact H2]. Qed.

Definition no_acc (e : ev) : Prop := match e with EvAccept _ _ _ => False | _ => True end.
Lemma wanted_quiet es l : Forall no_acc es -> wanted (es ++ l) = wanted l.
Proof. intros H. induction H as [|e es He Hes IH]; [reflexivity|]. cbn. destruct e; try exact IH. destruct He. Qed.
Lemma accepts_quiet es l : Forall no_acc es -> accepts (es ++ l) = accepts l.
Proof. intros H. unfold accepts. rewrite collect_app. replace (collect acc_of es) with (@nil ent); [apply app_nil_r|]. induction H as [|e es He Hes IH]; [reflexivity|]. cbn. rewrite <- IH. destruct e; try reflexivity. destruct He. Qed.

Record made (s : ws) : Prop := {
  m_want : wanted (tr s) = map item_of (accepts (tr s));
  m_whole : Forall whole_ent (accepts (tr s));
  m_frag : fragw (T s) = negb (unfinished (wanted (tr s)));
  m_seq : seq_ok false (wanted (tr s)) }.

Lemma made_quiet s s' es : made s -> tr s' = es ++ tr s -> Forall no_acc es -> fragw (T s') = fragw (T s) -> made s'.
Proof. intros [m1 m2 m3 m4] E Q F. split; rewrite ?E, ?wanted_quiet, ?accepts_quiet by exact Q; try assumption. rewrite F. exact m3. Qed.
Lemma made_accept s s' es n j len e : made s -> tr s' = es ++ EvAccept n j len :: e :: tr s -> Forall no_acc es -> no_acc e ->
  wish (unfinished (wanted (tr s))) e = [item_of (n, j, len)] -> whole_ent (n, j, len) -> fits (unfinished (wanted (tr s))) (item_of (n, j, len)) ->
  fragw (T s') = negb (next (unfinished (wanted (tr s))) (item_of (n, j, len))) -> made s'.
Proof.
  intros [m1 m2 m3 m4] E Q A W WH FI FR.
  assert (E1 : wanted (tr s') = wanted (tr s) ++ [item_of (n, j, len)]).
  { rewrite E, wanted_quiet by exact Q. cbn [wanted]. pose proof (wanted_quiet [e] (tr s)) as X. specialize (X ltac:(constructor; [exact A|constructor])). cbn [app] in X.
    change (match e with EvAccept _ _ _ => _ | _ => _ end) with (wanted (e :: tr s)). rewrite X, W. reflexivity. }
  assert (E2 : accepts (tr s') = accepts (tr s) ++ [(n, j, len)]).
  { rewrite E, accepts_quiet by exact Q. unfold accepts at 1. cbn [collect acc_of]. fold (accepts (tr s)). destruct e; cbn [acc_of]; rewrite ?app_nil_r; try reflexivity. destruct A. }
  split.
  - rewrite E1, E2, map_app, m1. reflexivity.
  - rewrite E2. apply Forall_app. split; [exact m2|]. constructor; [exact WH|constructor].
  - rewrite FR, E1. unfold unfinished at 2. rewrite fold_left_app. reflexivity.
  - rewrite E1. apply seq_snoc; [exact m4|exact FI].
Qed.

Section F.
Variable C : cfg.
Hypothesis HC : cfg_ok C.

Lemma send_quiet s n L ch s' r : send_frame C s n L ch = Ret (s', r) -> exists es, tr s' = es ++ tr s /\ Forall no_acc es /\ fragw (T s') = fragw (T s).
Proof. intros H. apply send_frame_frame in H. destruct H as (_ & (c & c0 & E & _) & _ & _ & _ & _ & _ & F & _). exists [EvSend n c]. split; [exact E|]. split; [repeat constructor|exact F]. Qed.
Lemma enqueue_quiet s n L ch kerr s' os : enqueue_job C s n L ch kerr = Ret (s', os) -> exists es, tr s' = es ++ tr s /\ Forall no_acc es /\ fragw (T s') = fragw (T s).
Proof. intros H. apply enqueue_frame in H. destruct H as (_ & [E|(c & E)] & _ & F & _); [exists []|exists [EvSend n c]]; (split; [exact E|split; [repeat constructor|exact F]]). Qed.

(** Operations accept nothing, except the close frame after an error. *)
Lemma op_quiet s o ch s' os : (forall c r, o <> OErrClose c r) -> run_op C s o ch = Ret (s', os) -> exists es, tr s' = es ++ tr s /\ Forall no_acc es /\ fragw (T s') = fragw (T s).
Proof.
  intros NE H.
  assert (NIL : forall s1 : ws, tr s1 = tr s -> fragw (T s1) = fragw (T s) -> exists es, tr s1 = es ++ tr s /\ Forall no_acc es /\ fragw (T s1) = fragw (T s)) by (intros s1 X Y; exists []; split; [exact X|split; [constructor|exact Y]]).
  assert (ONE : forall (s1 : ws) e, tr s1 = e :: tr s -> no_acc e -> fragw (T s1) = fragw (T s) -> exists es, tr s1 = es ++ tr s /\ Forall no_acc es /\ fragw (T s1) = fragw (T s)) by (intros s1 e X Z Y; exists [e]; split; [exact X|split; [repeat constructor; exact Z|exact Y]]).
  destruct o as [| |err code reason| |code reason| | |sh err|n h err c|err c|j|err| |err]; cbn [run_op] in H.
  - injection H as <- <-. apply NIL; reflexivity.
  - injection H as <- <-. apply NIL; reflexivity.
  - destruct (cbe s); injection H as <- <-; [apply NIL; reflexivity|eapply ONE; [reflexivity|exact I|reflexivity]].
  - assert (X : fragw (snd (dequeue_job (T s))) = fragw (T s)) by (unfold dequeue_job; destruct (first (T s)); [destruct (opt_eqb _ _)|]; reflexivity).
    destruct (dequeue_job (T s)) as [[n|] t]; injection H as <- <-; apply NIL; try reflexivity; exact X.
  - destruct (NE code reason eq_refl).
  - destruct (hasrh s); injection H as <- <-; [eapply ONE; [reflexivity|exact I|reflexivity]|apply NIL; reflexivity].
  - injection H as <- <-. eapply ONE; [reflexivity|exact I|reflexivity].
  - binv H. destruct a as [[t n] c]. assert (X : fragw t = fragw (T s)).
    { unfold write_jobs_popfront in E. assert (X : fragw (snd (dequeue_job (T s))) = fragw (T s)) by (unfold dequeue_job; destruct (first (T s)); [destruct (opt_eqb _ _)|]; reflexivity).
      destruct (dequeue_job (T s)) as [[m|] t0]; [|discriminate]. destruct (jwbh _); [|discriminate]. injection E as <- <- <-. exact X. }
    destruct sh; [destruct (jhandler _); [|discriminate]| | |]; injection H as <- <-; apply NIL; try reflexivity; exact X.
  - unfold call_handler in H. destruct h as [[id|]|]; injection H as <- <-; [eapply ONE; [reflexivity|exact I|reflexivity]|apply NIL; reflexivity..].
  - unfold call_handler in H. destruct (jhandler _) as [[id|]|]; injection H as <- <-; [eapply ONE; [reflexivity|exact I|reflexivity]|apply NIL; reflexivity..].
  - destruct j as [n|]; [|injection H as <- <-; apply NIL; reflexivity]. destruct (jwbh _); [|discriminate]. binv H. destruct a as [s1 r]. apply send_quiet in E. cbn [fst snd] in H. destruct r; injection H as <- _; exact E.
  - destruct (negb _); [injection H as <- <-; apply NIL; reflexivity|]. unfold bs_read in H. destruct (negb false && _)%bool; injection H as <- <-; apply NIL; reflexivity.
  - injection H as <- <-. apply NIL; reflexivity.
  - injection H as <- <-. eapply ONE; [reflexivity|exact I|reflexivity].
Qed.

Ltac Zify.zify_post_hook ::= Z.div_mod_to_equations.
Lemma be2 b0 b1 : b0 < 256 -> b1 < 256 -> be_bytes 2 (b0 * 256 + b1) = [b0; b1].
Proof.
  intros H0 H1. unfold be_bytes. cbn [seq map]. unfold be_byte. change (256 ^ N.of_nat (2 - 1 - 0)) with 256. change (256 ^ N.of_nat (2 - 1 - 1)) with 1.
  f_equal; [|f_equal]; lia.
Qed.
Ltac Zify.zify_post_hook ::= idtac.

Lemma close_reply addr data status len : bytes_ok data -> check_close_payload C addr data = Ret (CVOk status len) ->
  be_bytes 2 status ++ match (if 0 <? len then Some (skipn 2 data) else None) with Some r => firstn 123 r | None => [] end =
  match data with [] => be_bytes 2 1000 | _ => firstn 125 data end.
Proof.
  intros B H. unfold check_close_payload in H. destruct data as [|b0 [|b1 r]].
  - cbn in H. injection H as <- <-. reflexivity.
  - discriminate H.
  - inversion B as [|? ? B0 BX1]; inversion BX1 as [|? ? B1 BR]; subst. unfold byte_ok in B0, B1.
    assert (E1 : N.of_nat (length (b0 :: b1 :: r)) =? 1 = false) by (apply N.eqb_neq; cbn [length]; lia).
    assert (E2 : 2 <=? N.of_nat (length (b0 :: b1 :: r)) = true) by (apply N.leb_le; cbn [length]; lia). rewrite E1, E2 in H. cbv zeta in H.
    assert (LB : load_be C 2 (b0 :: b1 :: r) = Ret (b0 * 256 + b1)).
    { unfold load_be. cbn [length Nat.ltb Nat.leb firstn]. rewrite betoh_load; [|reflexivity|repeat constructor; assumption]. unfold be_value. cbn [fold_left]. f_equal. }
    rewrite LB in H. cbn [obind andb skipn] in H. destruct (is_invalid_status_code _); [discriminate|].
    assert (LR : N.of_nat (length (b0 :: b1 :: r)) - 2 = N.of_nat (length r)) by (cbn [length]; lia). rewrite LR in H.
    assert (X : status = b0 * 256 + b1 /\ len = N.of_nat (length r)).
    { destruct (0 <? N.of_nat (length r)); [binv H; destruct (_ =? _); [|discriminate]|]; injection H as <- <-; split; reflexivity. }
    destruct X as [-> ->]. rewrite be2 by assumption. cbn [skipn]. destruct (N.ltb_spec 0 (N.of_nat (length r))) as [Y|Y].
    + reflexivity.
    + destruct r; [reflexivity|cbn [length] in Y; lia].
Qed.

Lemma made_fire s rq f ch s' os : made s -> rx_ok s -> pong_plain s -> fire_ok rq f -> fire C s rq f ch = Ret (s', os) -> made s'.
Proof.
  intros M RX [PP _] FO H. destruct (fire_arrival C HC s rq f ch s' os RX FO H) as (os1 & -> & AR).
  destruct AR as [es X1 X2 X3 X4 X5|s1 data X1 X2 X3 X4|s1 addr data X1 X2 X3 X4]; destruct X1 as (x1 & x2 & x3 & x4 & x5).
  - apply (made_quiet s s' es M X2); [|rewrite x1; reflexivity]. eapply Forall_impl; [|exact X3]. intros e. destruct e; intros X; try exact I; destruct X.
  - pose proof (ping_data _ _ _ _ _ _ X4) as LD. unfold handle_ping_frame in X4. destruct (Nat.ltb 125 (length data)); [discriminate|].
    set (c := if Nat.ltb 0 (length data) then _ else _) in *.
    assert (CB : chain_bytes c = data). { unfold c, chain_bytes. destruct (Nat.ltb_spec 0 (length data)); cbn [map concat snd]; [apply app_nil_r|]. destruct data; [reflexivity|cbn in *; lia]. }
    cbn [log T] in X4. rewrite x1 in X4. rewrite (PP JPong) in X4 by discriminate.
    match type of X4 with enqueue_job C ?S _ _ _ _ = _ => set (s2 := S) in * end. apply enqueue_quiet in X4. destruct X4 as (es & E & Q & F).
    eapply (made_accept s s' es JPong _ (total_size c) (EvControl PING_FRAME data) M).
    + rewrite E. cbn [s2 tr log set_T]. rewrite X2. reflexivity.
    + exact Q.
    + exact I.
    + match goal with |- _ = [item_of ?x] => change (item_of x) with (true, 10, chain_bytes c) end. rewrite CB. reflexivity.
    + split; [reflexivity|]. unfold ent_len, ent_job, payload. cbn [fst snd jwbh]. split; [reflexivity|]. unfold total_size. rewrite CB. lia.
    + match goal with |- fits _ (item_of ?x) => change (item_of x) with (true, 10, chain_bytes c) end. rewrite CB. right. right. auto.
    + rewrite F. cbn. exact (m_frag _ M).
  - unfold handle_close_frame in X4. binv X4. destruct a as [ccode rs|status len].
    { injection X4 as <- <-. apply (made_quiet s s1 [] M); [exact X2|constructor|rewrite x1; reflexivity]. }
    cbn [log selfc] in X4. destruct (selfc s1).
    { injection X4 as <- <-. apply (made_quiet s _ [EvControl CLOSE_FRAME data] M); [cbn; rewrite X2; reflexivity|repeat constructor|cbn; rewrite x1; reflexivity]. }
    pose proof (close_reply addr data status len X3 E) as CR. set (reason := if 0 <? len then _ else _) in *. set (s0 := log s1 (EvControl CLOSE_FRAME data)) in *.
    destruct (close_chain C s0 status reason None SHResponseClose ch) as (b & JB & CS & BO & BL & BE). { unfold reason. destruct (0 <? len); [apply bytes_ok_skipn, X3|exact I]. }
    set (s2 := prepare_close_job C s0 status reason None SHResponseClose ch) in *.
    apply enqueue_quiet in X4. destruct X4 as (es & E4 & Q & F).
    assert (PB : payload (jobs (T s2) JClose) = b) by (rewrite JB; unfold payload, chain_bytes; cbn; apply app_nil_r).
    assert (JC : jcont (jobs (T s2) JClose) = false) by (rewrite JB; cbn [jcont s0 log T]; rewrite x1; apply PP; discriminate).
    assert (IT : item_of (JClose, jobs (T s2) JClose, close_size s2) = (true, 8, b)) by (unfold item_of, ent_job; cbn [fst snd]; rewrite PB, JB; reflexivity).
    eapply (made_accept s s' es JClose (jobs (T s2) JClose) (close_size s2) (EvControl CLOSE_FRAME data) M).
    + rewrite E4. unfold accept_close, s2, prepare_close_job, s0. cbn [tr log set_T]. rewrite X2. reflexivity.
    + exact Q.
    + exact I.
    + rewrite IT, BE. change (wish _ (EvControl CLOSE_FRAME data)) with [(true, 8, match data with [] => be_bytes 2 1000 | _ => firstn 125 data end)]. rewrite CR. reflexivity.
    + split; [exact JC|]. unfold ent_len, ent_job. cbn [fst snd]. rewrite PB, CS. split; [reflexivity|lia].
    + rewrite IT. right. right. split; [left; reflexivity|split; [reflexivity|lia]].
    + rewrite F, IT. unfold accept_close, s2, prepare_close_job, s0. cbn [T log set_T fragw set_job set_jobs next fst snd]. rewrite x1. exact (m_frag _ M).
Qed.

Lemma made_call s k a ch s' os : made s -> pong_plain s -> whole_frames (s, k) (XApi a ch) -> api_ok a -> call C s a ch = Ret (s', os) -> made s'.
Proof.
  intros M [PP _] W AO H. destruct W as [PR W]. cbn [proper fst] in PR. destruct PR as [_ PR]. unfold call in H. cbv zeta in H.
  assert (CALL : made (log s (EvCall a))) by (apply (made_quiet s _ [EvCall a] M); [reflexivity|repeat constructor|reflexivity]).
  assert (REF : forall e s1 os1, refuse (log s (EvCall a)) e = Ret (s1, os1) -> made s1).
  { intros e s1 os1 X. injection X as <- _. apply (made_quiet (log s (EvCall a)) _ [EvRefuse e] CALL); [reflexivity|repeat constructor|reflexivity]. }
  destruct a as [|id flen p lf bin|id p|id p|id p|id code reason].
  - assert (X : forall cb most n msg, Ret (bs_read C (set_hasrh (log s (EvCall ARead))) cb most n msg) = Ret (s', os) -> made s').
    { intros cb most n msg X. unfold bs_read in X. destruct (negb most && _)%bool; injection X as <- _; (apply (made_quiet s _ [EvCall ARead] M); [reflexivity|repeat constructor|reflexivity]). }
    destruct (_ =? _); eapply X; exact H.
  - destruct id as [id|]; [|eapply REF; exact H]. cbn [log T] in H. destruct (jwbh (jobs (T s) JMsg)); [eapply REF; exact H|].
    destruct PR as [PN _]. destruct p as [c|]; [|congruence]. destruct W as [W1 W2]. cbn [pbytes] in W1.
    destruct (if fragw (T s) then _ else _) as [kind fw] eqn:KD. apply enqueue_quiet in H. destruct H as (es & E & Q & F).
    pose proof (m_frag _ M) as MF.
    assert (K : kind = (if unfinished (wanted (tr s)) then 0 else if bin then 2 else 1) /\ fw = lf).
    { rewrite MF in KD. destruct (unfinished (wanted (tr s))); cbn [negb] in KD; injection KD as <- <-; (split; [try reflexivity; destruct bin; reflexivity|destruct lf; reflexivity]). }
    destruct K as [K1 K2].
    eapply (made_accept s s' es JMsg _ flen _ M).
    + rewrite E. reflexivity.
    + exact Q.
    + exact I.
    + cbn. rewrite K1. reflexivity.
    + split; [reflexivity|]. split; [exact W1|exact W2].
    + cbn. rewrite K1. destruct (unfinished (wanted (tr s))); [left; auto|]. right. left. split; [reflexivity|]. destruct bin; auto.
    + rewrite F. cbn [T log set_T set_fragw fragw]. rewrite K2. unfold next, item_of. cbn [fst snd ent_job jtype jlast]. rewrite K1.
      destruct (unfinished (wanted (tr s))); [|destruct bin]; cbn; symmetry; apply negb_involutive.
  - destruct W.
  - destruct PR as [PN _]. unfold write_ping_or_pong in H. destruct id as [id|]; [|eapply REF; exact H]. destruct p as [c|]; [|congruence].
    destruct (payload_size_in_limit (Some c) SMALL_FRAME_SIZE) eqn:PL; cbn [negb] in H; [|eapply REF; exact H]. cbn [log T] in H.
    destruct (jwbh (jobs (T s) JPing)); [eapply REF; exact H|]. rewrite (PP JPing) in H by discriminate. cbn in PL. apply N.leb_le in PL. unfold SMALL_FRAME_SIZE, total_size in PL.
    apply enqueue_quiet in H. destruct H as (es & E & Q & F). eapply (made_accept s s' es JPing _ (total_size c) _ M).
    + rewrite E. reflexivity.
    + exact Q.
    + exact I.
    + reflexivity.
    + split; [reflexivity|]. split; [reflexivity|]. unfold ent_len, total_size. cbn [snd]. lia.
    + cbn. right. right. split; [auto|]. split; [reflexivity|lia].
    + rewrite F. cbn. exact (m_frag _ M).
  - destruct PR.
  - destruct id as [id|]; [|eapply REF; exact H]. cbn [log T] in H. destruct (jwbh (jobs (T s) JClose)); [eapply REF; exact H|]. destruct AO as [_ AO].
    set (s0 := log s (EvCall (AClose (Some id) code reason))) in *.
    destruct (close_chain C s0 code reason (Some (HUser id)) SHClose ch AO) as (b & JB & CS & BO & BL & BE).
    set (s2 := prepare_close_job C s0 code reason (Some (HUser id)) SHClose ch) in *.
    assert (RF : forall e, made (log s2 (EvRefuse e))). { intros e. apply (made_quiet s0 _ [EvRefuse e] CALL); [reflexivity|repeat constructor|reflexivity]. }
    destruct (negb _); [injection H as <- _; apply RF|]. destruct (negb _); [injection H as <- _; apply RF|].
    apply enqueue_quiet in H. destruct H as (es & E & Q & F).
    assert (PB : payload (jobs (T s2) JClose) = b) by (rewrite JB; unfold payload, chain_bytes; cbn; apply app_nil_r).
    assert (JC : jcont (jobs (T s2) JClose) = false) by (rewrite JB; apply PP; discriminate).
    assert (IT : item_of (JClose, jobs (T s2) JClose, close_size s2) = (true, 8, b)) by (unfold item_of, ent_job; cbn [fst snd]; rewrite PB, JB; reflexivity).
    eapply (made_accept s s' es JClose (jobs (T s2) JClose) (close_size s2) _ M).
    + rewrite E. reflexivity.
    + exact Q.
    + exact I.
    + rewrite IT, BE. reflexivity.
    + split; [exact JC|]. unfold ent_len, ent_job. cbn [fst snd]. rewrite PB, CS. split; [reflexivity|lia].
    + rewrite IT. right. right. split; [left; reflexivity|split; [reflexivity|lia]].
    + rewrite F, IT. cbn. exact (m_frag _ M).
Qed.

Lemma whole_proper s k : reach C whole_frames (s, k) -> reach C proper (s, k).
Proof. apply reach_mono. intros c x [H _]. exact H. Qed.

Theorem reach_made s k : reach C whole_frames (s, k) -> cbe s = false -> made s.
Proof.
  intros H. remember (s, k) as c eqn:Ec. revert s k Ec. induction H as [g L1 L2 L3 L4|c x c' Hr IH En Cd St]; intros s k Ec CB.
  - injection Ec as <- <-. split; try reflexivity; try constructor.
  - subst c'. destruct c as [s0 k0]. pose proof St as G. apply step_grow in G.
    pose proof (proj1 (history C _ _ _ Hr)) as PP.
    assert (CB0 : cbe s0 = false). { destruct G as [G|(_ & _ & _ & _ & _ & _ & _ & _ & X & _)]; [|congruence]. destruct (G PP) as (_ & _ & X & _). congruence. }
    specialize (IH _ _ eq_refl CB0). pose proof (whole_proper _ _ Hr) as Hp.
    destruct (reach_out C HC _ _ Hp) as (q & _ & IV). rewrite CB0 in IV.
    destruct x as [ch|a ch|f ch|err|err]; cbn [enabled] in En; cbn [step] in St.
    + destruct En as [KN CH]. destruct k0 as [|o k1]; [congruence|]. unfold lift in St. binv St. destruct a as [s1 os]. injection St as -> <-. cbn [fst snd] in *.
      assert (NE : forall c r, o <> OErrClose c r). { intros c r ->. destruct IV as [V|[(o' & k' & X & V) _]]; [exact (n_top _ _ _ _ _ _ V)|]. injection X as <- <-. exact V. }
      apply op_quiet in E; [|exact NE]. destruct E as (es & E & Q & F). exact (made_quiet _ _ _ IH E Q F).
    + destruct En as (UC & HK & CH & AO). unfold lift in St. binv St. destruct a0 as [s1 os]. injection St as -> <-. cbn [fst snd] in *. eapply made_call; eassumption.
    + destruct En as (KT & _ & _ & CH & rq & RD & FO). rewrite RD in St. unfold lift in St. binv St. destruct a as [s1 os]. injection St as -> <-. cbn [fst snd] in *.
      assert (WI : WsRecvProofs.inv C s0 k0) by (eapply reach_inv; [exact HC|]; eapply reach_mono; [|exact Hp]; intros; apply proper_reads; assumption).
      apply (made_fire s0 rq f ch s os); try assumption. destruct (i_mask _ _ _ WI) as (? & ? & _). split; assumption.
    + unfold lift in St. cbn [obind fst snd] in St. injection St as <- _. apply (made_quiet s0 _ [] IH); [reflexivity|constructor|reflexivity].
    + unfold lift in St. cbn [obind fst snd] in St. injection St as <- _. apply (made_quiet s0 _ [] IH); [reflexivity|constructor|reflexivity].
Qed.
End F.
