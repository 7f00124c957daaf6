(** The pong of the library is in the queue as long as it is not written; reading
    is never blocked by a running callback (C54). *)
From Verif Require Import Base Utf8Model MaskModel MaskSpec EndianModel EndianSpec
  WsModel WsFrame WsSendProofs WsRecvSpec WsFrameSpec WsSend WsHistory WsTrace WsRecvProofs WsRecvReach WsClean WsRecvProps WsRecvProps2 WsQueue WsOutSpec WsArrive WsWire WsOut WsOutStep WsOutReach WsOutProps WsClose WsExec WsLive.
Open Scope N_scope.
Set Warnings "-unused-intro-pattern".

(** * Callbacks of the buffered stream *)
Definition is_return (o : op) : bool := match o with OBsReturn => true | _ => false end.
Definition nreturn (k : list op) : nat := length (filter is_return k).
Lemma nret_app a b : nreturn (a ++ b) = (nreturn a + nreturn b)%nat.
Proof. unfold nreturn. rewrite filter_app, app_length. reflexivity. Qed.

Section L.
Variable C : cfg.

Lemma enq_ret s n len ch kerr s' os : enqueue_job C s n len ch kerr = Ret (s', os) -> (forall e, nreturn (kerr e) = 0%nat) -> cbrun s' = cbrun s /\ nreturn os = 0%nat.
Proof.
  intros H K. apply enqueue_frame in H. destruct H as ((c1 & c2 & c3 & c4 & c5 & c6 & c7 & c8 & c9) & _ & _ & _ & OS). split; [exact c8|].
  destruct OS as [-> | [(sh & e & ->) | (e & msg & ->)]]; [reflexivity|reflexivity|]. exact (K e).
Qed.
Lemma ret_inj {A} (a b : A) : Ret a = Ret b -> a = b.
Proof. intros H. injection H. auto. Qed.
Lemma read_ret s cb most n msg s' os : bs_read C s cb most n msg = (s', os) -> cbrun s' = cbrun s /\ nreturn os = 0%nat.
Proof. unfold bs_read. destruct (_ && _)%bool; intros H; injection H as <- <-; (split; [reflexivity|]); [reflexivity|]. destruct (Nat.eqb _ _); reflexivity. Qed.
Lemma op_ret s o k ch s' os : run_op C s o ch = Ret (s', os) -> cbrun s = nreturn (o :: k) -> cbrun s' = nreturn (os ++ k).
Proof.
  intros H B. rewrite nret_app. change (o :: k) with ([o] ++ k) in B. rewrite nret_app in B.
  assert (Q : o <> OBsReturn -> cbrun s' = cbrun s /\ nreturn os = 0%nat -> cbrun s' = (nreturn os + nreturn k)%nat).
  { intros N [E1 E2]. rewrite E1, E2, B. destruct o; try reflexivity; congruence. }
  destruct o; cbn [run_op] in H; try (apply Q; [discriminate|]; clear Q).
  - injection H as <- <-; split; reflexivity.
  - injection H as <- <-; split; reflexivity.
  - destruct (cbe s); injection H as <- <-; split; reflexivity.
  - destruct (dequeue_job (T s)) as [[n|] t]; injection H as <- <-; split; reflexivity.
  - apply enq_ret in H; [exact H|reflexivity].
  - destruct (hasrh s); injection H as <- <-; split; reflexivity.
  - injection H as <- <-; split; reflexivity.
  - binv H. destruct a as [[t n] c]. destruct sh; [destruct (jhandler _); [|discriminate]|..]; injection H as <- <-; (split; [reflexivity|]); try reflexivity; destruct n; reflexivity.
  - unfold call_handler in H. destruct h as [[id|]|]; injection H as <- <-; split; reflexivity.
  - unfold call_handler in H. destruct (jhandler (jobs (T s) JClose)) as [[id|]|]; injection H as <- <-; split; reflexivity.
  - destruct j as [n|]; [|injection H as <- <-; split; reflexivity]. destruct (jwbh (jobs (T s) n)); [|discriminate]. binv H. destruct a as [s1 r]. cbn [fst snd] in H.
    apply send_frame_frame in E. destruct E as ((c1 & c2 & c3 & c4 & c5 & c6 & c7 & c8 & c9) & _). destruct r; injection H as <- <-; (split; [exact c8|reflexivity]).
  - destruct (negb _); [injection H as <- <-; split; reflexivity|]. apply ret_inj in H. eapply read_ret, H.
  - injection H as <- <-. cbn [cbrun set_cbrun nreturn filter length]. rewrite B. cbn. lia.
  - injection H as <- <-; split; reflexivity.
Qed.
Lemma call_ret s a ch s' os : call C s a ch = Ret (s', os) -> cbrun s' = cbrun s /\ nreturn os = 0%nat.
Proof.
  intros H. unfold call, refuse in H. destruct a as [|id flen p lf bin|id p|id p|id p|id code reason].
  - destruct (_ =? 0); apply ret_inj in H; apply (read_ret _ _ _ _ _ _ _ H).
  - destruct id as [id|]; [|injection H as <- <-; split; reflexivity]. destruct (jwbh _); [injection H as <- <-; split; reflexivity|].
    destruct (if fragw _ then _ else _) as [kind fw]. apply enq_ret in H; [exact H|reflexivity].
  - apply enq_ret in H; [exact H|reflexivity].
  - unfold write_ping_or_pong, refuse in H. destruct id as [id|]; [|injection H as <- <-; split; reflexivity]. destruct (negb _); [injection H as <- <-; split; reflexivity|].
    destruct (jwbh _); [injection H as <- <-; split; reflexivity|]. destruct p; [|discriminate]. apply enq_ret in H; [exact H|reflexivity].
  - unfold write_ping_or_pong, refuse in H. destruct id as [id|]; [|injection H as <- <-; split; reflexivity]. destruct (negb _); [injection H as <- <-; split; reflexivity|].
    destruct (jwbh _); [injection H as <- <-; split; reflexivity|]. destruct p; [|discriminate]. apply enq_ret in H; [exact H|reflexivity].
  - destruct id as [id|]; [|injection H as <- <-; split; reflexivity]. destruct (jwbh _); [injection H as <- <-; split; reflexivity|].
    destruct (negb _); [injection H as <- <-; split; reflexivity|]. destruct (negb _); [injection H as <- <-; split; reflexivity|]. apply enq_ret in H; [exact H|reflexivity].
Qed.

Definition calm (s s' : ws) (os : list op) : Prop := cbrun s' = cbrun s /\ nreturn os = 0%nat.
Lemma frame_ret s addr data ch s' os : handle_frame C s addr data ch = Ret (s', os) -> calm s s' os.
Proof.
  intros H. unfold handle_frame in H. binv H. clear E data. rename a into data.
  destruct (N.eqb (opcode (R s)) BINARY_FRAME).
  { unfold handle_binary_frame in H. binv H. injection H as <- <-. split; [|reflexivity]. cbn [cbrun log]. destruct (N.eqb (rem (R s)) 0); [injection E as <-; reflexivity|]; binv E; injection E as <-; reflexivity. }
  destruct (N.eqb (opcode (R s)) TEXT_FRAME).
  { unfold handle_text_frame in H. binv H. destruct a as [u st]. destruct (_ || _)%bool; [injection H as <- <-; split; reflexivity|].
    binv H. injection H as <- <-. clear - E0. split; [|reflexivity]. cbn [cbrun log]. destruct (fin (R s)); destruct (N.eqb _ 0); try (injection E0 as <-; reflexivity); binv E0; injection E0 as <-; reflexivity. }
  destruct (N.eqb (opcode (R s)) PING_FRAME). { unfold handle_ping_frame in H. destruct (Nat.ltb 125 _); [discriminate|]. apply enq_ret in H; [exact H|reflexivity]. }
  destruct (N.eqb (opcode (R s)) PONG_FRAME). { apply ret_inj in H. apply (read_ret _ _ _ _ _ _ _ H). }
  destruct (N.eqb (opcode (R s)) CLOSE_FRAME).
  { unfold handle_close_frame in H. binv H. destruct a; [injection H as <- <-; split; reflexivity|]. cbn [log selfc] in H. destruct (selfc s); [injection H as <- <-; split; reflexivity|]. apply enq_ret in H; [exact H|reflexivity]. }
  injection H as <- <-. split; reflexivity.
Qed.
Lemma payload_ret s ch s' os : read_payload C s ch = Ret (s', os) -> calm s s' os.
Proof.
  intros H. unfold read_payload in H. destruct (N.ltb 0 (rem (R s))).
  - destruct (N.ltb SIZE_MAX _); [injection H as <- <-; split; reflexivity|apply ret_inj in H; apply (read_ret _ _ _ _ _ _ _ H)].
  - apply frame_ret in H; exact H.
Qed.
Lemma mask_or_payload_ret s ch s' os : get_mask_or_payload C s ch = Ret (s', os) -> calm s s' os.
Proof. intros H. unfold get_mask_or_payload in H. destruct (is_server C); [apply ret_inj in H; apply (read_ret _ _ _ _ _ _ _ H)|apply payload_ret in H; exact H]. Qed.
Lemma fire_ret s rq f ch s' os : fire C s rq f ch = Ret (s', os) -> cbrun s' = S (cbrun s) /\ nreturn os = 1%nat.
Proof.
  intros H. unfold fire in H. binv H. destruct a as [s2 os2]. injection H as <- <-. cbn [fst snd]. rewrite nret_app. change (nreturn [OBsReturn]) with 1%nat.
  set (s1 := set_cbrun (set_rd s None) (S (cbrun s))) in *. change (S (cbrun s)) with (cbrun s1). enough (X : calm s1 s2 os2) by (destruct X as [X1 X2]; split; [exact X1|rewrite X2; reflexivity]).
  clearbody s1. clear s.
  destruct f as [err|addr view]; [injection E as <- <-; unfold read_error; destruct (Z.eqb err CIO_EOF); split; reflexivity|].
  set (num := if rq_most rq then _ else _) in E. clearbody num.
  destruct (rq_cb rq).
  - unfold get_header in E. destruct view as [|b view]; [discriminate|]. destruct (Nat.ltb _ _); [discriminate|].
    match type of E with (if ?b then _ else _) = _ => destruct b end; [injection E as <- <-; split; reflexivity|].
    destruct (handle_fin _ _); [injection E as <- <-; split; reflexivity|]. apply ret_inj in E. apply (read_ret _ _ _ _ _ _ _ E).
  - unfold get_first_length in E. destruct view as [|b view]; [discriminate|]. destruct (Nat.ltb _ _); [discriminate|]. cbv zeta in E.
    match type of E with (if ?b then _ else _) = _ => destruct b end; [injection E as <- <-; split; reflexivity|].
    match type of E with (if ?b then _ else _) = _ => destruct b end; [apply mask_or_payload_ret in E; exact E|].
    match type of E with (if ?b then _ else _) = _ => destruct b end; [injection E as <- <-; split; reflexivity|].
    match type of E with (if ?b then _ else _) = _ => destruct b end; apply ret_inj in E; apply (read_ret _ _ _ _ _ _ _ E).
  - unfold get_length in E. destruct (_ || _)%bool; [discriminate|]. cbv zeta in E. destruct (N.ltb SIZE_MAX _); [injection E as <- <-; split; reflexivity|]. apply mask_or_payload_ret in E; exact E.
  - unfold get_length in E. destruct (_ || _)%bool; [discriminate|]. cbv zeta in E. destruct (N.ltb SIZE_MAX _); [injection E as <- <-; split; reflexivity|]. apply mask_or_payload_ret in E; exact E.
  - unfold get_mask in E. destruct (Nat.ltb 4 num || _)%bool; [discriminate|]. apply payload_ret in E. exact E.
  - unfold get_payload in E. destruct (is_control_frame _); (destruct (Nat.ltb _ _); [discriminate|]; apply frame_ret in E; exact E).
Qed.

(** In the event loop no callback of the buffered stream is running. *)
Theorem reach_returns P s k : reach C P (s, k) -> cbrun s = nreturn k.
Proof.
  intros H. remember (s, k) as c eqn:Ec. revert s k Ec. induction H as [g L1 L2 L3 L4|c x c' Hr IH En Cd St]; intros s k Ec; [injection Ec as <- <-; reflexivity|].
  subst c'. destruct c as [s0 k0]. pose proof (IH _ _ eq_refl) as G. destruct x as [ch|a ch|f ch|err|err]; cbn [step enabled] in *.
  - destruct k0 as [|o k0]; [destruct En as [X _]; congruence|]. unfold lift in St. binv St. destruct a as [s1 o1]. injection St as <- <-. cbn [fst snd]. eapply op_ret; eassumption.
  - unfold lift in St. binv St. destruct a0 as [s1 o1]. injection St as <- <-. cbn [fst snd]. apply call_ret in E. destruct E as [E1 E2]. rewrite nret_app, E1, E2. exact G.
  - destruct En as (_ & _ & _ & _ & rq & RD & FO). rewrite RD in St. unfold lift in St. binv St. destruct a as [s1 o1]. injection St as <- <-. cbn [fst snd]. apply fire_ret in E. destruct E as [E1 E2]. rewrite nret_app, E1, E2, G. reflexivity.
  - destruct En as (-> & _). injection St as <- <-. exact G.
  - destruct En as (-> & _). injection St as <- <-. exact G.
Qed.

(** * The pong is in the queue *)
Hypothesis HC : cfg_ok C.
Definition pin (s : ws) : Prop := pong_waits s = true -> forall q, rep (T s) q -> In JPong q.
Definition pgood (s : ws) (k : list op) : Prop := err_top k \/ pin s.

Lemma pin_same s s' : pin s -> first (T s') = first (T s) -> last (T s') = last (T s) -> (forall n, jnext (jobs (T s') n) = jnext (jobs (T s) n)) ->
  pong_waits s' = pong_waits s -> pin s'.
Proof. intros H F L J W X q Q. rewrite W in X. apply (H X). apply (rep_ext (T s')); congruence || auto. Qed.
Lemma pin_enq s s1 q n len ch kerr s' os : pin s -> rep (T s) q -> ~ In n q -> first (T s1) = first (T s) -> last (T s1) = last (T s) ->
  (forall m, jnext (jobs (T s1) m) = jnext (jobs (T s) m)) -> (n <> JPong -> jobs (T s1) JPong = jobs (T s) JPong) ->
  enqueue_job C s1 n len ch kerr = Ret (s', os) -> pin s'.
Proof.
  intros P RP NI F L J W H. assert (R1 : rep (T s1) q) by (apply (rep_ext (T s)); congruence || auto).
  pose proof (enqueue_rep C _ _ _ _ _ _ _ _ R1 NI H) as R2. pose proof (enqueue_frame C _ _ _ _ _ _ _ H) as (_ & _ & JL & _ & _).
  intros X q' Q'. rewrite (rep_fun _ _ _ Q' R2). apply in_or_app. destruct (jname_dec n JPong) as [-> | Hn]; [right; left; reflexivity|left].
  apply (P); [|exact RP]. rewrite (waits_like _ _ JL) in X. unfold pong_waits in *. rewrite (W Hn) in X. exact X.
Qed.

Lemma pin_op s o k q ch s' os : base (T s) (tr s) (o :: k) q -> normal C (T s) (tr s) (selfc s) (o :: k) q -> pin s ->
  run_op C s o ch = Ret (s', os) -> pgood s' (os ++ k).
Proof.
  intros B N P H. pose proof (n_top _ _ _ _ _ _ N) as TO.
  assert (Q0 : T s' = T s -> pgood s' (os ++ k)) by (intros E; right; apply (pin_same s); rewrite ?E; auto; unfold pong_waits; rewrite E; reflexivity).
  destruct o; cbn [run_op] in H; try (destruct TO; fail).
  - injection H as <- <-. apply Q0; reflexivity.
  - injection H as <- <-. apply Q0; reflexivity.
  - pose proof (n_tok _ _ _ _ _ _ N) as (T1 & T2 & T3). destruct (one_pong q) as [-> | ->]; [apply B|exact T3| |].
    + rewrite rep_pop_nil in H by apply B. injection H as <- <-. apply Q0. reflexivity.
    + destruct (rep_pop _ _ _ (b_rep _ _ _ _ B)) as [E _]. rewrite E in H. injection H as <- <-. right. intros X. discriminate X.
  - destruct (hasrh s); injection H as <- <-; apply Q0; reflexivity.
  - injection H as <- <-. apply Q0; reflexivity.
  - pose proof (tok_in _ _ _ _ _ _ N I) as TK.
    unfold nstream, nnext in TK. cbn [filter is_stream is_next length] in TK. fold (nstream k) in TK. fold (nnext k) in TK.
    destruct q as [|n q]; [cbn [one] in TK; lia|]. pose proof (n_ready _ _ _ _ _ _ N n (or_introl eq_refl)) as [WB _].
    destruct (jwbh (jobs (T s) n)) as [c|] eqn:W; [|congruence]. pose proof (b_rep _ _ _ _ B) as RP.
    rewrite (pop_form _ _ _ _ RP W) in H. cbn [obind] in H. fold (popped (T s) n q) in H.
    assert (X : T s' = popped (T s) n q) by (destruct sh; [destruct (jhandler _); [|discriminate]|..]; injection H as <- <-; reflexivity).
    right. intros PW q' Q'. rewrite X in Q'. rewrite (rep_fun _ _ _ Q' (popped_rep _ _ _ RP)). unfold pong_waits in PW. rewrite X in PW.
    destruct (jname_dec n JPong) as [-> | Hn]; [discriminate PW|]. rewrite popped_other in PW by congruence. destruct (P PW _ RP) as [Y|Y]; [congruence|exact Y].
  - unfold call_handler in H. destruct h as [[id|]|]; injection H as <- <-; apply Q0; reflexivity.
  - unfold call_handler in H. destruct (jhandler (jobs (T s) JClose)) as [[id|]|]; injection H as <- <-; apply Q0; reflexivity.
  - destruct j as [n|]; [|injection H as <- <-; apply Q0; reflexivity].
    destruct (jwbh (jobs (T s) n)) as [c|] eqn:W; [|discriminate]. binv H. destruct a as [s1 r]. cbn [fst snd] in H.
    apply send_frame_frame in E. destruct E as (_ & _ & E3 & E4 & E5 & E6 & E7 & _).
    assert (X : s1 = s') by (destruct r; injection H; auto). subst s1. right. apply (pin_same s); try assumption.
    + intros m. destruct (jname_dec m n) as [-> | Hm]; [exact E3|rewrite E4 by assumption; reflexivity].
    + apply waits_like, E5.
  - destruct (negb _); [injection H as <- <-; apply Q0; reflexivity|]. unfold bs_read in H. destruct (_ && _)%bool; injection H as <- <-; apply Q0; reflexivity.
  - injection H as <- <-. apply Q0; reflexivity.
  - injection H as <- <-. apply Q0; reflexivity.
Qed.

Lemma pin_call s a ch s' os k q : proper (s, k) (XApi a ch) -> user_control k -> base (T s) (tr s) k q -> normal C (T s) (tr s) (selfc s) k q -> pin s ->
  call C s a ch = Ret (s', os) -> pin s'.
Proof.
  intros PR UC B N P H. pose proof (b_rep _ _ _ _ B) as RP. cbn [proper fst] in PR. destruct PR as [OV PR].
  assert (KT : calm_top k) by (destruct UC as [-> | [k' ->]]; [left; reflexivity|right; exists OUser, k'; auto]). destruct (calm_idle _ _ _ _ _ _ N KT) as [KI TK].
  assert (SW : T s' = T s -> pin s') by (intros E; apply (pin_same s); rewrite ?E; auto; unfold pong_waits; rewrite E; reflexivity).
  assert (UP : forall n j, jnext j = jnext (jobs (T s) n) -> forall m, jnext (upd (jobs (T s)) n j m) = jnext (jobs (T s) m)).
  { intros n j E m. destruct (jname_dec m n) as [-> | Hm]; [rewrite upd_same; exact E|rewrite upd_other by exact Hm; reflexivity]. }
  unfold call, refuse in H. destruct a as [|id flen p lf bin|id p|id p|id p|id code reason].
  - cbn [log R set_hasrh rem] in H. unfold bs_read in H. destruct (rem (R s) =? 0); destruct (_ && _)%bool; injection H as <- <-; apply SW; reflexivity.
  - destruct id as [id|]; [|injection H as <- <-; apply SW; reflexivity].
    cbn [log T] in H. destruct (jwbh (jobs (T s) JMsg)) eqn:W; [injection H as <- <-; apply SW; reflexivity|].
    destruct (if fragw (T s) then _ else _) as [kind fw].
    eapply (pin_enq s) in H; try eassumption; try reflexivity; [intros X; destruct (n_ready _ _ _ _ _ _ N JMsg X) as [Y _]; congruence|apply UP; reflexivity].
  - destruct PR as (PI & PN & PC & PM). cbn [log T] in H.
    eapply (pin_enq s) in H; try eassumption; try reflexivity; [eapply msg_not_waiting; try eassumption; apply idle_pend, KI|apply UP; reflexivity].
  - unfold write_ping_or_pong, refuse in H. destruct id as [id|]; [|injection H as <- <-; apply SW; reflexivity].
    destruct (negb _) eqn:LIM; [injection H as <- <-; apply SW; reflexivity|].
    cbn [log T] in H. destruct (jwbh (jobs (T s) JPing)) eqn:W; [injection H as <- <-; apply SW; reflexivity|]. destruct p as [c|]; [|discriminate].
    eapply (pin_enq s) in H; try eassumption; try reflexivity; [intros X; destruct (n_ready _ _ _ _ _ _ N JPing X) as [Y _]; congruence|apply UP; reflexivity].
  - destruct PR.
  - destruct id as [id|]; [|injection H as <- <-; apply SW; reflexivity].
    cbn [log T] in H. destruct (jwbh (jobs (T s) JClose)) eqn:W; [injection H as <- <-; apply SW; reflexivity|].
    assert (NI : ~ In JClose q). { intros X. rewrite (n_cls1 _ _ _ _ _ _ N X) in PR. discriminate. }
    destruct (negb (Z.eqb (ch_timer_init ch) CIO_SUCCESS)); [injection H as <- <-; apply (pin_same s); auto; apply UP; reflexivity|].
    destruct (negb (Z.eqb (ch_timer_arm ch) CIO_SUCCESS)); [injection H as <- <-; apply (pin_same s); auto; apply UP; reflexivity|].
    eapply (pin_enq s) in H; try eassumption; try reflexivity. apply UP; reflexivity.
Qed.

Lemma pin_fire s k q rq f ch s' os : WsRecvProofs.inv C s k -> base (T s) (tr s) k q -> normal C (T s) (tr s) (selfc s) k q -> pin s ->
  rd s = Some rq -> fire_ok rq f -> fire C s rq f ch = Ret (s', os) -> err_top os \/ pin s'.
Proof.
  intros IV B N P RD FO H. pose proof (b_rep _ _ _ _ B) as RP.
  assert (TOK : (pongs (jobs (T s)) = 0)%nat). { pose proof (i_tok _ _ _ IV) as X. unfold tokens, pongtok in X. rewrite RD in X. cbn [has b2n] in X. lia. }
  assert (NOP : ~ In JPong q).
  { intros X. destruct (n_ready _ _ _ _ _ _ N JPong X) as (Y1 & _ & Y2). unfold pongs, pong_job in TOK. rewrite Y2 in TOK. destruct (jwbh (jobs (T s) JPong)); [|congruence]. cbn [b2n] in TOK. lia. }
  pose proof (open_reading C s k rq IV RD) as NPC.
  assert (UP : forall n j, jnext j = jnext (jobs (T s) n) -> forall m, jnext (upd (jobs (T s)) n j m) = jnext (jobs (T s) m)).
  { intros n j E m. destruct (jname_dec m n) as [-> | Hm]; [rewrite upd_same; exact E|rewrite upd_other by exact Hm; reflexivity]. }
  destruct (fire_arrival C HC s rq f ch s' os) as (os1 & -> & AR); [destruct (i_mask _ _ _ IV) as (? & ? & _); split; assumption|exact FO|exact H|].
  destruct AR as [es Y X2 _ _ _|s1 data Y X2 _ X3|s1 addr data Y X2 _ X3]; destruct Y as (X1 & _ & SE & _).
  - right. apply (pin_same s); rewrite ?X1; auto. unfold pong_waits. rewrite X1. reflexivity.
  - right. unfold handle_ping_frame in X3. destruct (Nat.ltb 125 (length data)); [discriminate|]. cbn [log T] in X3. rewrite X1 in X3.
    eapply (pin_enq s) in X3; try eassumption; try reflexivity; [apply UP; reflexivity|congruence].
  - unfold handle_close_frame in X3. binv X3. destruct a as [ccode rs|status len]; [injection X3 as <- <-; left; exact I|]. right.
    cbn [log selfc] in X3. destruct (selfc s1) eqn:SF. { injection X3 as <- <-. apply (pin_same s); cbn [T set_timer log]; rewrite ?X1; auto. unfold pong_waits. cbn [T set_timer log]. rewrite X1. reflexivity. }
    assert (SF' : selfc s = false) by congruence.
    assert (NA : close_asked (tr s) = false). { destruct (close_asked (tr s)) eqn:A; [|reflexivity]. destruct (n_cls2 _ _ _ _ _ _ N A) as [Y|Y]; congruence. }
    assert (NI : ~ In JClose q). { intros X. apply (n_cls1 _ _ _ _ _ _ N) in X. congruence. }
    set (reason := if 0 <? len then _ else _) in *.
    eapply (pin_enq s) in X3; try eassumption; unfold accept_close, prepare_close_job; cbn [T log set_T set_job set_jobs jobs first last]; rewrite ?X1; try reflexivity; [apply UP; reflexivity].
Qed.

Theorem reach_pin s k : reach C proper (s, k) -> cbe s = false -> pgood s k.
Proof.
  intros H. remember (s, k) as c eqn:Ec. revert s k Ec. induction H as [g L1 L2 L3 L4|c x c' Hr IH En Cd St]; intros s k Ec CB.
  - injection Ec as <- <-. right. intros X. discriminate.
  - subst c'. destruct c as [s0 k0]. pose proof (history C _ _ _ Hr) as (HP & _).
    assert (CB0 : cbe s0 = false). { destruct (step_grow C _ _ _ _ _ St) as [G | (? & ? & ? & ? & ? & _ & _ & _ & X & _)]; [destruct (G HP) as (_ & _ & E & _); congruence|congruence]. }
    pose proof (IH _ _ eq_refl CB0) as G. destruct (reach_out C HC _ _ Hr) as (q & B & V). rewrite CB0 in V.
    assert (IV : WsRecvProofs.inv C s0 k0) by (eapply reach_inv; [exact HC|]; eapply reach_mono; [|exact Hr]; intros; apply proper_reads; assumption).
    assert (W : err_top k0 \/ normal C (T s0) (tr s0) (selfc s0) k0 q /\ pin s0).
    { destruct V as [V|[(o & k' & -> & EO) _]]; [|left; exact EO]. destruct G as [G|G]; [left; exact G|right; auto]. }
    clear V G. destruct W as [ER|[N Z]].
    + destruct k0 as [|o k0]; [destruct ER|]. cbn [err_top] in ER.
      destruct x as [ch|a ch|f ch|err|err]; cbn [enabled] in En.
      * cbn [step] in St. unfold lift in St. binv St. destruct a as [s1 os]. injection St as -> <-. cbn [fst snd].
        destruct o; try (destruct ER; fail); cbn [run_op] in E.
        -- rewrite CB0 in E. injection E as <- <-. discriminate CB.
        -- destruct ER as [-> ER]. injection E as <- <-. left. exact ER.
        -- destruct (Z.eqb_spec err CIO_SUCCESS) as [->|NE]; [destruct ER; reflexivity|]. injection E as <- <-. left; exact I.
      * destruct En as ([UC | [k'' UC]] & _); [discriminate|]. injection UC as -> _. destruct ER.
      * destruct En as ([UC | [k'' UC]] & _); [discriminate|]. injection UC as -> _. destruct ER.
      * destruct En as (X & _). discriminate.
      * destruct En as (X & _). discriminate.
    + destruct x as [ch|a ch|f ch|err|err]; cbn [enabled] in En.
      * destruct En as [KN CH]. destruct k0 as [|o k1]; [congruence|]. cbn [step] in St. unfold lift in St. binv St. destruct a as [s1 os]. injection St as -> <-. cbn [fst snd] in *. eapply pin_op; eassumption.
      * destruct En as (UC & _ & _ & _). cbn [step] in St. unfold lift in St. binv St. destruct a0 as [s1 os]. injection St as -> <-. cbn [fst snd] in *. right. eapply pin_call; eassumption.
      * destruct En as (KT & HK & _ & _ & rq & RD & FO). cbn [step] in St. rewrite RD in St. unfold lift in St. binv St. destruct a as [s1 os]. injection St as -> <-. cbn [fst snd] in *.
        destruct (pin_fire _ _ _ _ _ _ _ _ IV B N Z RD FO E) as [X|X]; [left; destruct os; [destruct X|exact X]|right; exact X].
      * destruct En as (-> & _ & _). cbn [step] in St. unfold lift in St. cbn [obind fst snd app] in St. injection St as <- <-. right. apply (pin_same s0); auto.
      * destruct En as (-> & TI & _). cbn [step] in St. unfold lift in St. cbn [obind fst snd app] in St. injection St as <- <-. right. apply (pin_same s0); auto.
Qed.
End L.

(** ** C54 *)
(** The application has asked for a message and has not got anything since. *)
Definition read_open (t : list ev) : Prop := may_read t = false.

Theorem C54_receiving_never_stalls : forall C P s, reach C P (s, []) -> read_open (tr s) -> no_error (tr s) -> peer_closed (tr s) = false ->
  (exists rq, rd s = Some rq /\ forall f ch, hooked s = false -> choice_ok ch -> fire_ok rq f -> enabled (s, []) (XFire f ch)) \/
  (exists c, jwbh (jobs (T s) JPong) = Some c /\ jhandler (jobs (T s) JPong) = Some HPong).
Proof.
  intros C P s H RO NE PC. pose proof (no_error_cbe _ _ _ _ H NE) as CB. destruct (reach_going _ _ _ _ H) as (_ & _ & L).
  destruct L as [L|[L|[L|[L|[L|L]]]]]; try (unfold read_open in *; congruence); [discriminate L|left|right].
  - destruct (rd s) as [rq|] eqn:RD; [|congruence]. exists rq. split; [reflexivity|]. intros f ch HK CO FO. cbn [enabled].
    split; [left; reflexivity|]. split; [exact HK|]. split; [exact (reach_returns _ _ _ _ H)|]. split; [exact CO|]. exists rq. auto.
  - unfold pong_waits, pong_job in L. destruct (jwbh (jobs (T s) JPong)) as [c|]; [|discriminate]. exists c. split; [reflexivity|]. destruct (jhandler (jobs (T s) JPong)) as [[|]|]; try discriminate. reflexivity.
Qed.

(** For applications that follow the rules the pong is on its way: a write is in
    flight, and its completion is what goes on. *)
Theorem C54_waits_for_peer_or_write : forall C s, cfg_ok C -> reach C proper (s, []) -> read_open (tr s) -> no_error (tr s) -> peer_closed (tr s) = false ->
  (exists rq, rd s = Some rq /\ forall f ch, hooked s = false -> choice_ok ch -> fire_ok rq f -> enabled (s, []) (XFire f ch)) \/
  (inflight (T s) = 1%nat /\ forall err, hooked s = false -> enabled (s, []) (XWritten err)).
Proof.
  intros C s HC H RO NE PC. destruct (C54_receiving_never_stalls _ _ _ H RO NE PC) as [X|(c & X1 & X2)]; [left; exact X|right].
  pose proof (no_error_cbe _ _ _ _ H NE) as CB. destruct (reach_out C HC _ _ H) as (q & B & V). rewrite CB in V. destruct V as [V|[(o & k' & X & _) _]]; [|discriminate].
  destruct (reach_pin C HC _ _ H CB) as [Y|Y]; [destruct Y|].
  assert (IN : In JPong q). { apply Y; [|apply B]. unfold pong_waits, pong_job. rewrite X1, X2. reflexivity. }
  pose proof (n_tok _ _ _ _ _ _ V) as TK. destruct q; [destruct IN|]. cbn in TK. assert (I1 : inflight (T s) = 1%nat) by lia.
  split; [exact I1|]. intros err HK. cbn [enabled]. split; [reflexivity|]. split; [exact HK|]. rewrite I1. apply Nat.lt_0_1.
Qed.
Print Assumptions C54_receiving_never_stalls.
Print Assumptions C54_waits_for_peer_or_write.

(** Both cases occur: a ping arrives while the application waits for a message; until the pong is
    written no byte is asked for, and afterwards the next frame is. *)
Example live_pong_in_flight : exists s k, reach cli proper (s, k) /\ k = [] /\ read_open (tr s) /\ no_error (tr s) /\ peer_closed (tr s) = false /\ hooked s = false /\
  rd s = None /\ map fst (sends (tr s)) = [JPong] /\ dones (tr s) = [].
Proof. go_it cli ([readcall; op1; arrive [0x89; 1]; op1; arrive [1]; op1; arrive [55]; op1]). repeat split; not_there. Qed.
Example live_after_pong : exists s k, reach cli proper (s, k) /\ k = [] /\ read_open (tr s) /\ no_error (tr s) /\ peer_closed (tr s) = false /\ hooked s = false /\
  rd s <> None /\ map fst (sends (tr s)) = [JPong] /\ inflight (T s) = 0%nat.
Proof. go_it cli ([readcall; op1; arrive [0x89; 1]; op1; arrive [1]; op1; arrive [55]; op1; XWritten 0] ++ ops 5). repeat split; try not_there; discriminate. Qed.
