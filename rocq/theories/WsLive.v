(** Receiving never stalls (C54): whatever the application and the environment
    do, a read request of the application is answered, or something is under way
    that will go on with it. *)
From Verif Require Import Base Utf8Model MaskModel MaskSpec EndianModel EndianSpec
  WsModel WsFrame WsSendProofs WsRecvSpec WsFrameSpec WsSend WsHistory WsTrace WsRecvProofs WsRecvReach WsClean WsRecvProps WsQueue WsOutSpec WsArrive WsWire WsOut WsOutStep WsOutReach WsClose.
Open Scope N_scope.
Set Warnings "-unused-intro-pattern".

(** Pending operations of the call stack that go on with reading, or fail. *)
Definition ahead (o : op) : bool :=
  match o with OHandleError _ _ _ | OHandler _ (Some HPong) _ _ | OPongWritten _ => true | _ => false end.
(** The library itself has a pong waiting to be sent or being sent. *)
Definition pong_waits (s : ws) : bool := pong_job (jobs (T s) JPong).
Definition lives (s : ws) (k : list op) : Prop :=
  cbe s = true \/ peer_closed (tr s) = true \/ existsb ahead k = true \/ may_read (tr s) = true \/ rd s <> None \/ pong_waits s = true.
(** Only the pong job has the library's handler. *)
Definition others (s : ws) : Prop := forall n, n <> JPong -> pong_job (jobs (T s) n) = false.

Section L.
Variable C : cfg.

Lemma peer_more es l : peer_closed l = true -> peer_closed (es ++ l) = true.
Proof. unfold peer_closed. rewrite existsb_app. intros ->. apply orb_true_r. Qed.

(** A step that does not touch the receiving side. *)
Lemma lives_on s k s' k' es : lives s k -> cbe s' = cbe s -> rd s' = rd s -> tr s' = es ++ tr s -> forallb quiet_ev es = true ->
  (existsb ahead k = true -> cbe s = true \/ existsb ahead k' = true \/ rd s' <> None) ->
  (pong_waits s = true -> pong_waits s' = true \/ existsb ahead k' = true \/ peer_closed (tr s) = true) -> lives s' k'.
Proof.
  intros L E1 E2 E3 E4 E5 E6. destruct (quiet_evs es (tr s) E4) as [_ M]. unfold lives in *. rewrite E1, E2, E3, M in *.
  destruct L as [L|[L|[L|[L|[L|L]]]]]; [left; exact L|right; left; apply peer_more, L| |tauto|tauto| ].
  - destruct (E5 L) as [X|[X|X]]; tauto.
  - destruct (E6 L) as [X|[X|X]]; [tauto|tauto|right; left; apply peer_more, X].
Qed.
Lemma ahead_app a k : existsb ahead k = true -> existsb ahead (a ++ k) = true.
Proof. apply existsb_app_r. Qed.
Lemma lives_err s k a : existsb ahead a = true -> lives s (a ++ k).
Proof. intros H. right; right; left. rewrite existsb_app, H. reflexivity. Qed.

Lemma others_like s s' : (forall m, job_like (jobs (T s) m) (jobs (T s') m)) -> others s -> others s'.
Proof. intros H O n Hn. rewrite (pong_job_like _ _ (H n)). apply O, Hn. Qed.
Lemma waits_like s s' : (forall m, job_like (jobs (T s) m) (jobs (T s') m)) -> pong_waits s' = pong_waits s.
Proof. intros H. apply pong_job_like, H. Qed.

(** The answer to a close frame exists only after a close frame arrived. *)
Record answering (s : ws) (k : list op) : Prop := {
  a_job : forall n, jwbh (jobs (T s) n) <> None -> jsh (jobs (T s) n) = SHResponseClose -> peer_closed (tr s) = true;
  a_fly : (0 < inflight (T s))%nat -> bswh (T s) = SHResponseClose -> peer_closed (tr s) = true;
  a_ops : forall e, In (OStream SHResponseClose e) k -> peer_closed (tr s) = true }.
Lemma answering_on s k s' k' es : answering s k -> tr s' = es ++ tr s ->
  (forall n, jwbh (jobs (T s') n) <> None -> jsh (jobs (T s') n) = SHResponseClose -> jwbh (jobs (T s) n) <> None /\ jsh (jobs (T s) n) = SHResponseClose) ->
  ((0 < inflight (T s'))%nat -> (0 < inflight (T s))%nat /\ bswh (T s') = bswh (T s)) -> (forall e, In (OStream SHResponseClose e) k' -> In (OStream SHResponseClose e) k) -> answering s' k'.
Proof.
  intros [a1 a2 a3] E J I K. split; rewrite E.
  - intros n X Y. destruct (J n X Y). apply peer_more, (a1 n); assumption.
  - intros X Y. destruct (I X) as [X1 X2]. apply peer_more, a2; congruence.
  - intros e X. apply peer_more, (a3 e), K, X.
Qed.
Lemma like_wbh j j' : job_like j j' -> jwbh j' <> None -> jsh j' = SHResponseClose -> jwbh j <> None /\ jsh j = SHResponseClose.
Proof. intros (_ & _ & _ & _ & H1 & H2) X Y. split; [rewrite <- H2; exact X|congruence]. Qed.
(** send_frame *)
Lemma send_answering s n len ch s' r k ops : send_frame C s n len ch = Ret (s', r) -> answering s k ->
  (forall e, In (OStream SHResponseClose e) ops -> exists e', r = SSync SHResponseClose e') -> answering s' (ops ++ k).
Proof.
  intros E [a1 a2 a3] K. apply send_frame_frame in E. destruct E as (_ & (x1 & x2 & E2 & E2' & _) & E3 & E4 & E5 & E6 & E7 & E8 & E9 & E10).
  assert (B : jsh (jobs (T s) n) = SHResponseClose -> peer_closed (tr s') = true) by (intros X; rewrite E2; apply (peer_more [_]); apply (a1 n); congruence).
  split.
  - intros m X Y. destruct (like_wbh _ _ (E5 m) X Y). rewrite E2. apply (peer_more [_]), (a1 m); assumption.
  - rewrite E9. intros _. exact B.
  - intros e X. apply in_app_or in X. destruct X as [X|X]; [|rewrite E2; apply (peer_more [_]), (a3 e X)].
    destruct (K e X) as (e' & ->). apply B. destruct (ch_write ch); destruct E10 as [Y _]; congruence.
Qed.
Lemma enq_answering s n len ch kerr s' ops k : enqueue_job C s n len ch kerr = Ret (s', ops) -> answering s k -> (forall e e', ~ In (OStream SHResponseClose e) (kerr e')) -> answering s' (ops ++ k).
Proof.
  intros H A K. unfold enqueue_job in H. destruct (first (T s)) as [f|].
  - destruct (last (T s)) as [l|]; [|discriminate]. injection H as <- <-. apply (answering_on s k _ _ []); try assumption; try reflexivity; [| |intros e X; exact X].
    + intros m. cbn [T set_T set_last set_job set_jobs jobs]. destruct (jname_dec m l) as [-> | Hm]; [rewrite upd_same; auto|rewrite upd_other by exact Hm; auto].
    + cbn. auto.
  - binv H. destruct a as [s1 r]. cbn [fst snd] in H. assert (A1 : answering (set_T s (set_last (set_first (T s) (Some n)) (Some n))) k).
    { apply (answering_on s k _ _ []); try assumption; try reflexivity; cbn; auto. }
    destruct r; injection H as <- <-; eapply send_answering; try eassumption.
    + intros e [].
    + intros e0 [X|[]]. injection X as -> _. eauto.
    + intros e [X|X]; [discriminate|]. destruct (K _ _ X).
Qed.

Lemma answering_op s o k ch s' ops : answering s (o :: k) -> run_op C s o ch = Ret (s', ops) -> answering s' (ops ++ k).
Proof.
  intros A H.
  assert (Q0 : forall es, T s' = T s -> tr s' = es ++ tr s -> (forall e, ~ In (OStream SHResponseClose e) ops) -> answering s' (ops ++ k)).
  { intros es ET E K. apply (answering_on s (o :: k) _ _ es); try assumption; rewrite ?ET; auto. intros e X. apply in_app_or in X. destruct X as [X|X]; [destruct (K e X)|right; exact X]. }
  assert (NO : forall x e, (forall sh e, x <> OStream sh e) -> ~ In (OStream SHResponseClose e) [x]) by (intros x e X [Y|[]]; eapply X; exact Y).
  assert (POP : forall n t t1 ops', dequeue_job (T s) = (n, t1) -> T s' = t -> (forall m, jwbh (jobs t m) <> None -> jobs t m = jobs t1 m) -> inflight t = inflight t1 -> bswh t = bswh t1 -> tr s' = tr s ->
     ops = ops' -> (forall e, ~ In (OStream SHResponseClose e) ops') -> answering s' (ops ++ k)).
  { intros n t t1 ops' D ET J I1 I2 E -> K. destruct (dequeue_frame _ _ _ D) as (J1 & _ & _ & _ & I3 & I4 & _). apply (answering_on s (o :: k) _ _ []); try assumption; rewrite ?ET.
    - intros m X Y. pose proof (J m X) as JX. rewrite JX, J1 in X, Y. auto.
    - intros X. split; congruence.
    - intros e X. apply in_app_or in X. destruct X as [X|X]; [destruct (K e X)|right; exact X]. }
  destruct o; cbn [run_op] in H.
  - injection H as <- <-. apply (Q0 []); try reflexivity; auto.
  - injection H as <- <-. apply (Q0 []); try reflexivity; auto.
  - destruct (cbe s) eqn:B; injection H as <- <-; [apply (Q0 [])|apply (Q0 [EvError err reason])]; try reflexivity; auto.
    intros e [X|[X|[]]]; discriminate.
  - destruct (dequeue_job (T s)) as [n t] eqn:D. destruct n as [n|]; injection H as <- <-; (eapply POP; [reflexivity|reflexivity|..]; try reflexivity).
    + intros m. cbn [T set_T set_job set_jobs jobs]. destruct (jname_dec m n) as [-> | Hm]; [rewrite upd_same; cbn; congruence|rewrite upd_other by exact Hm; reflexivity].
    + intros e [X|[X|[]]]; discriminate.
    + intros e [].
  - eapply enq_answering; [exact H| |intros e e' [X|[]]; discriminate].
    eapply (answering_on s (OErrClose code reason :: k)); [exact A|apply (app_assoc [_] [] (tr s))|..].
    + intros m. unfold accept_close, prepare_close_job. cbn [T log set_T set_job set_jobs jobs]. destruct (jname_dec m JClose) as [-> | Hm]; [rewrite upd_same; cbn; congruence|rewrite upd_other by exact Hm; auto].
    + cbn. auto.
    + intros e X. right. exact X.
  - destruct (hasrh s); injection H as <- <-; [apply (Q0 [EvEof])|apply (Q0 [])]; try reflexivity; auto; [intros e [X|[X|[]]]; discriminate|intros e; apply NO; discriminate].
  - injection H as <- <-. apply (Q0 [EvHook]); try reflexivity; auto. intros e; apply NO; discriminate.
  - binv H. destruct a as [[t n0] c]. unfold write_jobs_popfront in E.
    destruct (dequeue_job (T s)) as [n t1] eqn:D. destruct n as [n|]; [|discriminate E]. destruct (jwbh (jobs t1 n)) as [c1|] eqn:W; [|discriminate E]. injection E as <- <- <-.
    assert (X : T s' = set_job t1 n (set_wbh (jobs t1 n) None) /\ tr s' = tr s /\ forall e, ~ In (OStream SHResponseClose e) ops).
    { destruct sh; [destruct (jhandler _); [|discriminate]|..]; injection H as <- <-; (split; [reflexivity|]; split; [reflexivity|]); intros e;
        intros X; repeat (destruct X as [X|X]; [first [discriminate X | unfold close_handler in X; destruct n; discriminate X]|]); exact X. }
    destruct X as (X1 & X2 & X3). eapply POP; [reflexivity|exact X1|..]; try reflexivity; try assumption.
    intros m. cbn [set_job set_jobs jobs]. destruct (jname_dec m n) as [-> | Hm]; [rewrite upd_same; cbn; congruence|rewrite upd_other by exact Hm; reflexivity].
  - unfold call_handler in H. destruct h as [[id|]|]; injection H as <- <-; [apply (Q0 [EvWriteDone n id err c])|apply (Q0 [])|apply (Q0 [])]; try reflexivity; auto; intros e; apply NO; discriminate.
  - unfold call_handler in H. destruct (jhandler (jobs (T s) JClose)) as [[id|]|]; injection H as <- <-; [apply (Q0 [EvWriteDone JClose id err c])|apply (Q0 [])|apply (Q0 [])]; try reflexivity; auto; intros e; apply NO; discriminate.
  - destruct j as [n|]; [|injection H as <- <-; apply (Q0 []); try reflexivity; auto].
    destruct (jwbh (jobs (T s) n)) as [c|] eqn:W; [|discriminate]. binv H. destruct a as [s1 r]. cbn [fst snd] in H.
    assert (A1 : answering s k) by (apply (answering_on s (OMsgNext (Some n) :: k) _ _ []); try assumption; try reflexivity; auto; intros; right; assumption).
    destruct r; injection H as <- <-; eapply send_answering; try eassumption.
    + intros e [].
    + intros e0 [X|[]]. injection X as -> _. eauto.
    + intros e0 [X|[]]. discriminate.
  - destruct (negb _); [injection H as <- <-; apply (Q0 []); try reflexivity; intros e; apply NO; discriminate|].
    unfold bs_read in H. destruct (_ && _)%bool; injection H as <- <-; apply (Q0 []); try reflexivity; [intros e; apply NO; discriminate|].
    destruct (Nat.eqb _ _); intros e; [apply NO; discriminate|intros []].
  - injection H as <- <-. apply (Q0 []); try reflexivity; auto.
  - injection H as <- <-. apply (Q0 [EvRet err]); try reflexivity; auto.
Qed.

(** enqueue_job *)
Lemma enq_live s0 k s n len ch kerr s' ops es :
  enqueue_job C s n len ch kerr = Ret (s', ops) -> cbe s = cbe s0 -> rd s = rd s0 -> tr s = es ++ tr s0 -> forallb quiet_ev es = true ->
  (forall m, m <> n -> jobs (T s) m = jobs (T s0) m) -> (n = JPong -> pong_waits s0 = false) -> pong_job (jobs (T s) n) = false ->
  (others s0 -> others s') /\ (lives s0 k -> lives s' (ops ++ k)).
Proof.
  intros H E1 E2 E3 E4 J NP PJ. apply enqueue_frame in H. destruct H as ((c1 & c2 & c3 & c4 & c5 & c6 & c7 & c8 & c9) & TR & JL & _ & _).
  split.
  - intros O. apply (others_like s); [exact JL|]. intros m Hm. destruct (jname_dec m n) as [-> | Hn]; [exact PJ|rewrite J by exact Hn; apply O, Hm].
  - assert (X : exists es', tr s' = es' ++ tr s0 /\ forallb quiet_ev es' = true).
    { destruct TR as [-> | [c ->]]; [exists es; auto|]. exists (EvSend n c :: es). cbn [forallb quiet_ev app]. rewrite E3. auto. }
    destruct X as (es' & X1 & X2). intros L. apply (lives_on s0 k s' _ es'); try assumption; try congruence.
    + intros A. right; left. apply ahead_app, A.
    + intros W. left. rewrite (waits_like _ _ JL). unfold pong_waits in *. rewrite J by (intros <-; rewrite (NP eq_refl) in W; discriminate). exact W.
Qed.

Lemma live_op s o k ch s' ops : jhandler (jobs (T s) JClose) <> Some HPong -> answering s (o :: k) -> others s -> lives s (o :: k) -> run_op C s o ch = Ret (s', ops) -> others s' /\ lives s' (ops ++ k).
Proof.
  intros NP AN O L H.
  assert (Q0 : forall es, T s' = T s -> cbe s' = cbe s -> rd s' = rd s -> tr s' = es ++ tr s -> forallb quiet_ev es = true ->
     (ahead o = true -> cbe s = true \/ existsb ahead ops = true) -> others s' /\ lives s' (ops ++ k)).
  { intros es ET E1 E2 E3 E4 E5. split; [unfold others; rewrite ET; exact O|]. apply (lives_on s (o :: k) s' _ es); try assumption.
    - intros A. cbn [existsb] in A. apply orb_prop in A. destruct A as [A|A]; [destruct (E5 A) as [X|X]; [tauto|]|].
      + right; left. rewrite existsb_app, X. reflexivity.
      + right; left. apply ahead_app, A.
    - intros W. left. unfold pong_waits in *. rewrite ET. exact W. }
  destruct o; cbn [run_op] in H.
  - injection H as <- <-. apply (Q0 []); try reflexivity; auto; discriminate.
  - injection H as <- <-. apply (Q0 []); try reflexivity; auto; discriminate.
  - destruct (cbe s) eqn:B; injection H as <- <-; [apply (Q0 []); try reflexivity; auto|]. split; [exact O|left; reflexivity].
  - destruct (dequeue_job (T s)) as [n t] eqn:D. destruct (dequeue_frame _ _ _ D) as (J & _). destruct n as [n|]; injection H as <- <-.
    + split.
      * intros m Hm. cbn [T set_T set_job set_jobs jobs]. destruct (jname_dec m n) as [-> | Hn]; [rewrite upd_same; reflexivity|rewrite upd_other by exact Hn; rewrite J; apply O, Hm].
      * apply (lives_on s (OAbort :: k) _ _ []); try reflexivity; try assumption.
        -- intros A. right; left. apply ahead_app, A.
        -- intros W. unfold pong_waits in *. cbn [T set_T set_job set_jobs jobs]. destruct (jname_dec n JPong) as [-> | Hn].
           ++ right; left. cbn [app existsb ahead]. rewrite J. unfold pong_job in W. destruct (jwbh (jobs (T s) JPong)); [|discriminate]. destruct (jhandler (jobs (T s) JPong)) as [[|]|]; try discriminate. reflexivity.
           ++ left. rewrite upd_other by congruence. rewrite J. exact W.
    + split; [unfold others; cbn [T set_T]; rewrite J; exact O|]. apply (lives_on s (OAbort :: k) _ _ []); try reflexivity; try assumption.
      * intros A. right; left. exact A.
      * intros W. left. unfold pong_waits in *. cbn [T set_T]. rewrite J. exact W.
  - eapply (enq_live s (OErrClose code reason :: k) _ _ _ _ _ _ _ [EvAccept JClose _ _]) in H; try reflexivity; try discriminate.
    + destruct H as [H1 H2]. split; [apply H1, O|]. specialize (H2 L). unfold lives in *. rewrite existsb_app in *. cbn [existsb ahead orb] in H2. exact H2.
    + intros m Hm. unfold accept_close, prepare_close_job. cbn [T log set_T set_job set_jobs jobs]. apply upd_other, Hm.
  - destruct (hasrh s); injection H as <- <-; [apply (Q0 [EvEof])|apply (Q0 [])]; try reflexivity; auto; discriminate.
  - injection H as <- <-. apply (Q0 [EvHook]); try reflexivity; auto; discriminate.
  - (* OStream *)
    binv H. destruct a as [[t n0] c]. unfold write_jobs_popfront in E.
    destruct (dequeue_job (T s)) as [n t1] eqn:D. destruct (dequeue_frame _ _ _ D) as (J & _).
    destruct n as [n|]; [|discriminate E]. destruct (jwbh (jobs t1 n)) as [c1|] eqn:W; [|discriminate E]. injection E as <- <- <-.
    set (s1 := set_T s (set_job t1 n (set_wbh (jobs t1 n) None))) in *.
    assert (O1 : others s1).
    { intros m Hm. cbn [s1 T set_T set_job set_jobs jobs]. destruct (jname_dec m n) as [-> | Hn]; [rewrite upd_same; reflexivity|rewrite upd_other by exact Hn; rewrite J; apply O, Hm]. }
    assert (HN : jhandler (jobs (set_job t1 n (set_wbh (jobs t1 n) None)) n) = jhandler (jobs (T s) n)) by (cbn [set_job set_jobs jobs]; rewrite upd_same, J; reflexivity).
    rewrite HN in H. assert (GO : forall ops', (pong_job (jobs (T s) JPong) = true -> n = JPong -> existsb ahead ops' = true \/ peer_closed (tr s) = true) -> others s1 /\ lives s1 (ops' ++ k)).
    { intros ops' X. split; [exact O1|]. apply (lives_on s (OStream sh err :: k) _ _ []); try reflexivity; try assumption.
      - intros A. right; left. apply ahead_app, A.
      - intros A. unfold pong_waits in *. destruct (jname_dec n JPong) as [-> | Hn].
        + right. destruct (X A eq_refl) as [Y|Y]; [left; rewrite existsb_app, Y; reflexivity|right; exact Y].
        + left. cbn [s1 T set_T set_job set_jobs jobs]. rewrite upd_other by congruence. rewrite J. exact A. }
    assert (PH : pong_job (jobs (T s) JPong) = true -> jhandler (jobs (T s) JPong) = Some HPong).
    { unfold pong_job. destruct (jwbh (jobs (T s) JPong)); [|discriminate]. destruct (jhandler (jobs (T s) JPong)) as [[|]|]; try discriminate. reflexivity. }
    destruct sh.
    + destruct (jhandler (jobs (T s) n)) as [h|] eqn:Hh; [|discriminate]. injection H as <- <-. apply GO. intros A ->. left. rewrite (PH A) in Hh. injection Hh as <-. reflexivity.
    + injection H as <- <-. apply GO. intros _ _. right. apply (a_ops _ _ AN err). left. reflexivity.
    + injection H as <- <-. apply GO. intros A ->. left. cbn [close_handler existsb ahead orb]. rewrite HN, (PH A). reflexivity.
    + injection H as <- <-. apply GO. intros A ->. left. cbn [close_handler existsb ahead orb]. rewrite HN, (PH A). reflexivity.
  - unfold call_handler in H. destruct h as [[id|]|]; injection H as <- <-.
    + apply (Q0 [EvWriteDone n id err c]); try reflexivity; discriminate.
    + apply (Q0 []); try reflexivity. intros _. right. reflexivity.
    + apply (Q0 []); try reflexivity; discriminate.
  - unfold call_handler in H. destruct (jhandler (jobs (T s) JClose)) as [[id|]|]; injection H as <- <-.
    + apply (Q0 [EvWriteDone JClose id err c]); try reflexivity; discriminate.
    + congruence.
    + apply (Q0 []); try reflexivity; discriminate.
  - (* OMsgNext *) destruct j as [n|]; [|injection H as <- <-; apply (Q0 []); try reflexivity; discriminate].
    destruct (jwbh (jobs (T s) n)) as [c|] eqn:W; [|discriminate]. binv H. destruct a as [s1 r]. cbn [fst snd] in H.
    apply send_frame_frame in E. destruct E as ((c1 & c2 & c3 & c4 & c5 & c6 & c7 & c8 & c9) & (x1 & x2 & E2 & _) & E3 & E4 & E5 & E6 & E7 & _).
    assert (X : s1 = s') by (destruct r; injection H; auto). subst s1. split; [apply (others_like s); assumption|].
    apply (lives_on s (OMsgNext (Some n) :: k) _ _ [EvSend n x1]); try assumption; try reflexivity.
    + intros A. right; left. apply ahead_app, A.
    + intros A. left. rewrite (waits_like _ _ E5). exact A.
  - destruct (negb _); [injection H as <- <-; split; [exact O|apply lives_err; reflexivity]|].
    unfold bs_read in H. destruct (_ && _)%bool; injection H as <- <-; (split; [exact O|]); [apply lives_err; reflexivity|].
    do 4 right. left. discriminate.
  - injection H as <- <-. apply (Q0 []); try reflexivity; discriminate.
  - injection H as <- <-. apply (Q0 [EvRet err]); try reflexivity; discriminate.
Qed.

(** What the completion of a read request does. *)
Inductive comes (s : ws) (ch : choice) (s' : ws) (os : list op) : Prop :=
| co_plain : T s' = T s -> (exists es, tr s' = es ++ tr s) -> (forall sh e, ~ In (OStream sh e) os) ->
    (may_read (tr s') = true \/ rd s' <> None \/ existsb ahead os = true) -> comes s ch s' os
| co_ping s1 data : T s1 = T s -> tr s1 = tr s -> handle_ping_frame C s1 data ch = Ret (s', os) -> comes s ch s' os
| co_close s1 addr data : T s1 = T s -> tr s1 = tr s -> handle_close_frame C s1 addr data ch = Ret (s', os) -> comes s ch s' os.
Lemma comes_pre s0 s ch s' os : T s = T s0 -> tr s = tr s0 -> comes s ch s' os -> comes s0 ch s' os.
Proof.
  intros E F H. destruct H as [X1 X2 X3 X4|s1 data X1 X2 X3|s1 addr data X1 X2 X3].
  - apply co_plain; [congruence|rewrite <- F; exact X2|exact X3|exact X4].
  - apply (co_ping _ _ _ _ s1 data); [congruence|congruence|exact X3].
  - apply (co_close _ _ _ _ s1 addr data); [congruence|congruence|exact X3].
Qed.
Lemma read_comes s ch cb most n msg s' os : Ret (bs_read C s cb most n msg) = Ret (s', os) -> comes s ch s' os.
Proof.
  unfold bs_read. destruct (negb most && _)%bool; intros H; injection H as <- <-; (apply co_plain; [reflexivity|exists []; reflexivity|..]).
  - intros sh e [X|[]]; discriminate.
  - right; right. reflexivity.
  - destruct (Nat.eqb _ _); intros sh e X; [destruct X as [X|[]]; discriminate|destruct X].
  - right; left. discriminate.
Qed.
Lemma fail_comes s ch e c r : comes s ch s [OHandleError e c r].
Proof. apply co_plain; [reflexivity|exists []; reflexivity|intros sh e' [X|[]]; discriminate|right; right; reflexivity]. Qed.
Lemma data_comes s s' ch b n l x y : T s' = T s -> tr s' = tr s -> comes s ch (log s' (EvData b n l x y)) [OUser].
Proof. intros E F. apply co_plain; [exact E|eexists [_]; cbn; rewrite F; reflexivity|intros sh e [X|[]]; discriminate|left; reflexivity]. Qed.
Lemma frame_comes s addr data ch s' os : handle_frame C s addr data ch = Ret (s', os) -> comes s ch s' os.
Proof.
  intros H. unfold handle_frame in H. binv H. clear E data. rename a into data.
  destruct (N.eqb (opcode (R s)) BINARY_FRAME).
  { unfold handle_binary_frame in H. binv H. injection H as <- <-. apply data_comes; (destruct (N.eqb (rem (R s)) 0); [injection E as <-; reflexivity|]; binv E; injection E as <-; reflexivity). }
  destruct (N.eqb (opcode (R s)) TEXT_FRAME).
  { unfold handle_text_frame in H. binv H. destruct a as [u st]. destruct (_ || _)%bool.
    { injection H as <- <-. eapply comes_pre; [| |apply fail_comes]; reflexivity. }
    binv H. injection H as <- <-. clear - E0. apply data_comes; destruct (fin (R s)); destruct (N.eqb _ 0); try (injection E0 as <-; reflexivity); binv E0; injection E0 as <-; reflexivity. }
  destruct (N.eqb (opcode (R s)) PING_FRAME). { eapply co_ping; [reflexivity|reflexivity|exact H]. }
  destruct (N.eqb (opcode (R s)) PONG_FRAME).
  { unfold handle_pong_frame in H. unfold bs_read in H.
    destruct (negb false && _)%bool; injection H as <- <-; (apply co_plain; [reflexivity|eexists [_]; reflexivity|..]).
    - intros sh e [X|[]]; discriminate.
    - right; right. reflexivity.
    - destruct (Nat.eqb _ _); intros sh e X; [destruct X as [X|[]]; discriminate|destruct X].
    - right; left. discriminate. }
  destruct (N.eqb (opcode (R s)) CLOSE_FRAME). { eapply co_close; [reflexivity|reflexivity|exact H]. }
  injection H as <- <-. apply fail_comes.
Qed.
Lemma payload_comes s ch s' os : read_payload C s ch = Ret (s', os) -> comes s ch s' os.
Proof.
  intros H. unfold read_payload in H. destruct (N.ltb 0 (rem (R s))).
  - destruct (N.ltb SIZE_MAX _); [injection H as <- <-; apply fail_comes|eapply read_comes; exact H].
  - eapply frame_comes; exact H.
Qed.
Lemma mask_or_payload_comes s ch s' os : get_mask_or_payload C s ch = Ret (s', os) -> comes s ch s' os.
Proof. intros H. unfold get_mask_or_payload in H. destruct (is_server C); [eapply read_comes; exact H|apply payload_comes; assumption]. Qed.
Lemma fire_comes s rq f ch s' os : fire C s rq f ch = Ret (s', os) -> exists os1, os = os1 ++ [OBsReturn] /\ comes s ch s' os1.
Proof.
  intros H. unfold fire in H. binv H. destruct a as [s2 os2]. injection H as <- <-. cbn [fst snd]. exists os2. split; [reflexivity|].
  set (s1 := set_cbrun (set_rd s None) (S (cbrun s))) in *. apply (comes_pre s s1); [reflexivity|reflexivity|].
  clearbody s1. clear s.
  destruct f as [err|addr view]; [injection E as <- <-; unfold read_error; destruct (Z.eqb err CIO_EOF); apply fail_comes|].
  set (num := if rq_most rq then _ else _) in E. clearbody num.
  assert (FL : forall s e c r, T s = T s1 -> tr s = tr s1 -> comes s1 ch s [OHandleError e c r]) by (intros; eapply comes_pre; [| |apply fail_comes]; assumption).
  destruct (rq_cb rq).
  - unfold get_header in E. destruct view as [|b view]; [discriminate|]. destruct (Nat.ltb _ _); [discriminate|].
    match type of E with (if ?b then _ else _) = _ => destruct b end; [injection E as <- <-; apply FL; reflexivity|].
    destruct (handle_fin _ _); [injection E as <- <-; apply FL; reflexivity|].
    eapply comes_pre; [| |eapply read_comes; exact E]; reflexivity.
  - unfold get_first_length in E. destruct view as [|b view]; [discriminate|]. destruct (Nat.ltb _ _); [discriminate|]. cbv zeta in E.
    match type of E with (if ?b then _ else _) = _ => destruct b end; [injection E as <- <-; apply FL; reflexivity|].
    match type of E with (if ?b then _ else _) = _ => destruct b end; [eapply comes_pre; [| |eapply mask_or_payload_comes; exact E]; reflexivity|].
    match type of E with (if ?b then _ else _) = _ => destruct b end; [injection E as <- <-; apply FL; reflexivity|].
    match type of E with (if ?b then _ else _) = _ => destruct b end; (eapply comes_pre; [| |eapply read_comes; exact E]; reflexivity).
  - unfold get_length in E. destruct (_ || _)%bool; [discriminate|]. cbv zeta in E. destruct (N.ltb SIZE_MAX _); [injection E as <- <-; apply FL; reflexivity|].
    eapply comes_pre; [| |eapply mask_or_payload_comes; exact E]; reflexivity.
  - unfold get_length in E. destruct (_ || _)%bool; [discriminate|]. cbv zeta in E. destruct (N.ltb SIZE_MAX _); [injection E as <- <-; apply FL; reflexivity|].
    eapply comes_pre; [| |eapply mask_or_payload_comes; exact E]; reflexivity.
  - unfold get_mask in E. destruct (Nat.ltb 4 num || _)%bool; [discriminate|]. eapply comes_pre; [| |eapply payload_comes; exact E]; reflexivity.
  - unfold get_payload in E. destruct (is_control_frame _); (destruct (Nat.ltb _ _); [discriminate|]; eapply comes_pre; [| |eapply frame_comes; exact E]; reflexivity).
Qed.

(** The whole invariant. *)
Definition going (s : ws) (k : list op) : Prop := answering s k /\ others s /\ lives s k.

(** A write that is not an automatic pong is queued. *)
Lemma going_enq s0 k s n j len ch kerr s' ops es : going s0 k ->
  enqueue_job C s n len ch kerr = Ret (s', ops) -> cbe s = cbe s0 -> rd s = rd s0 -> tr s = es ++ tr s0 -> forallb quiet_ev es = true ->
  jobs (T s) = upd (jobs (T s0)) n j -> inflight (T s) = inflight (T s0) -> bswh (T s) = bswh (T s0) ->
  (n = JPong -> pong_waits s0 = false) -> pong_job j = false -> (jsh j = SHResponseClose -> peer_closed (tr s) = true) ->
  (forall e e', ~ In (OStream SHResponseClose e) (kerr e')) -> going s' (ops ++ k).
Proof.
  intros (A & O & L) H E1 E2 E3 E4 EJ I1 I2 NP PJ SH K.
  assert (JO : forall m, m <> n -> jobs (T s) m = jobs (T s0) m) by (intros m Hm; rewrite EJ; apply upd_other, Hm).
  assert (PN : pong_job (jobs (T s) n) = false) by (rewrite EJ, upd_same; exact PJ).
  destruct (enq_live s0 k s n len ch kerr s' ops es H E1 E2 E3 E4 JO NP PN) as [X1 X2].
  split; [|split; auto]. eapply enq_answering; [exact H| |exact K].
  destruct A as [a1 a2 a3]. split; rewrite ?I1, ?I2.
  - intros m X Y. destruct (jname_dec m n) as [-> | Hm]; [rewrite EJ, upd_same in Y; apply SH, Y|rewrite JO in X, Y by exact Hm; rewrite E3; apply peer_more, (a1 m); assumption].
  - intros X Y. rewrite E3. apply peer_more, a2; assumption.
  - intros e X. rewrite E3. apply peer_more, (a3 e X).
Qed.
Lemma going_quiet s k s' k' es : going s k -> T s' = T s -> cbe s' = cbe s -> rd s' = rd s -> tr s' = es ++ tr s -> forallb quiet_ev es = true -> going s' (k' ++ k) \/ exists sh e, In (OStream sh e) k'.
Proof.
  intros (A & O & L) ET E1 E2 E3 E4. assert (D : (forall sh e, ~ In (OStream sh e) k') \/ exists sh e, In (OStream sh e) k').
  { clear. induction k' as [|o k' IH]; [left; intros sh e []|]. destruct IH as [IH|(sh & e & IH)]; [|right; exists sh, e; right; exact IH].
    destruct o; try (left; intros sh' e' [X|X]; [discriminate|apply (IH _ _ X)]). right. eexists _, _. left. reflexivity. }
  destruct D as [D|D]; [left|right; exact D]. split; [|split].
  - apply (answering_on s k _ _ es); rewrite ?ET; auto. intros e X. apply in_app_or in X. destruct X as [X|X]; [destruct (D _ _ X)|exact X].
  - unfold others. rewrite ET. exact O.
  - apply (lives_on s k _ _ es); auto. + intros X. right; left. apply ahead_app, X. + intros X. left. unfold pong_waits in *. rewrite ET. exact X.
Qed.

Lemma going_call s a ch s' os k : going s k -> call C s a ch = Ret (s', os) -> going s' (os ++ k).
Proof.
  intros G H. pose proof G as (A & O & L).
  assert (RF : forall es, T s' = T s -> cbe s' = cbe s -> rd s' = rd s -> tr s' = es ++ tr s -> forallb quiet_ev es = true -> os = [] -> going s' (os ++ k)).
  { intros es E1 E2 E3 E4 E5 ->. destruct (going_quiet s k s' [] es G E1 E2 E3 E4 E5) as [X|(sh & e & [])]. exact X. }
  unfold call, refuse in H. destruct a as [|id flen p lf bin|id p|id p|id p|id code reason].
  - assert (X : T s' = T s /\ (exists es, tr s' = es ++ tr s) /\ (forall sh e, ~ In (OStream sh e) os) /\ (rd s' <> None \/ existsb ahead os = true)).
    { cbn [log R set_hasrh rem] in H. unfold bs_read in H. destruct (rem (R s) =? 0); destruct (_ && _)%bool; injection H as <- <-; (split; [reflexivity|]; split; [eexists [_]; reflexivity|]); split;
        try (right; reflexivity); try (left; discriminate); try (intros sh e [X|[]]; discriminate); destruct (Nat.eqb _ _); intros sh e X; (destruct X as [X|[]]; discriminate) || destruct X. }
    destruct X as (X1 & (es & X2) & X3 & X4). split; [|split].
    + apply (answering_on s k _ _ es); rewrite ?X1; auto. intros e X. apply in_app_or in X. destruct X as [X|X]; [destruct (X3 _ _ X)|exact X].
    + unfold others. rewrite X1. exact O.
    + destruct X4 as [X|X]; [do 4 right; left; exact X|apply lives_err, X].
  - destruct id as [id|]; [|injection H as <- <-; apply (RF [EvRefuse CIO_INVALID_ARGUMENT; EvCall (AFirst None flen p lf bin)]); reflexivity].
    cbn [log T] in H. destruct (jwbh (jobs (T s) JMsg)) eqn:W; [injection H as <- <-; apply (RF [EvRefuse CIO_OPERATION_NOT_PERMITTED; EvCall (AFirst (Some id) flen p lf bin)]); reflexivity|].
    destruct (if fragw (T s) then _ else _) as [kind fw].
    eapply (going_enq s k _ JMsg _ _ _ _ _ _ [EvAccept JMsg _ _; EvCall _] G H); try reflexivity; try discriminate.
    + destruct p; reflexivity.
    + intros e e' [X|[]]; discriminate.
  - cbn [log T] in H. eapply (going_enq s k _ JMsg _ _ _ _ _ _ [EvAccept JMsg _ _; EvCall _] G H); try reflexivity; try discriminate.
    + destruct p, id; reflexivity.
    + intros e e' [X|[]]; discriminate.
  - unfold write_ping_or_pong, refuse in H.
    destruct id as [id|]; [|injection H as <- <-; apply (RF [EvRefuse CIO_INVALID_ARGUMENT; EvCall (APing None p)]); reflexivity].
    destruct (negb _) eqn:LIM; [injection H as <- <-; apply (RF [EvRefuse CIO_INVALID_ARGUMENT; EvCall (APing (Some id) p)]); reflexivity|].
    cbn [log T] in H. destruct (jwbh (jobs (T s) JPing)) eqn:W; [injection H as <- <-; apply (RF [EvRefuse CIO_OPERATION_NOT_PERMITTED; EvCall (APing (Some id) p)]); reflexivity|].
    destruct p as [c|]; [|discriminate].
    eapply (going_enq s k _ JPing _ _ _ _ _ _ [EvAccept JPing _ _; EvCall _] G H); try reflexivity; try discriminate. intros e e' [].
  - unfold write_ping_or_pong, refuse in H.
    destruct id as [id|]; [|injection H as <- <-; apply (RF [EvRefuse CIO_INVALID_ARGUMENT; EvCall (APong None p)]); reflexivity].
    destruct (negb _) eqn:LIM; [injection H as <- <-; apply (RF [EvRefuse CIO_INVALID_ARGUMENT; EvCall (APong (Some id) p)]); reflexivity|].
    cbn [log T] in H. destruct (jwbh (jobs (T s) JPong)) eqn:W; [injection H as <- <-; apply (RF [EvRefuse CIO_OPERATION_NOT_PERMITTED; EvCall (APong (Some id) p)]); reflexivity|].
    destruct p as [c|]; [|discriminate].
    eapply (going_enq s k _ JPong _ _ _ _ _ _ [EvAccept JPong _ _; EvCall _] G H); try reflexivity; try discriminate; [|intros e e' []].
    intros _. unfold pong_waits, pong_job. rewrite W. reflexivity.
  - destruct id as [id|]; [|injection H as <- <-; apply (RF [EvRefuse CIO_INVALID_ARGUMENT; EvCall (AClose None code reason)]); reflexivity].
    cbn [log T] in H. destruct (jwbh (jobs (T s) JClose)) eqn:W; [injection H as <- <-; apply (RF [EvRefuse CIO_OPERATION_NOT_PERMITTED; EvCall (AClose (Some id) code reason)]); reflexivity|].
    set (s0 := log s (EvCall (AClose (Some id) code reason))) in *. set (s1 := prepare_close_job C s0 code reason (Some (HUser id)) SHClose ch) in *.
    assert (RG : forall e, going (log s1 (EvRefuse e)) k).
    { intros e. split; [|split].
      - apply (answering_on s k _ _ [EvRefuse e; EvCall (AClose (Some id) code reason)]); auto.
        intros m. unfold s1, prepare_close_job. cbn [T log set_T set_job set_jobs jobs s0]. destruct (jname_dec m JClose) as [-> | Hm]; [rewrite upd_same; cbn; congruence|rewrite upd_other by exact Hm; auto].
      - intros m Hm. unfold s1, prepare_close_job. cbn [T log set_T set_job set_jobs jobs s0]. destruct (jname_dec m JClose) as [-> | Hn]; [rewrite upd_same; reflexivity|rewrite upd_other by exact Hn; apply O, Hm].
      - apply (lives_on s k _ _ [EvRefuse e; EvCall (AClose (Some id) code reason)]); auto. }
    destruct (negb (Z.eqb (ch_timer_init ch) CIO_SUCCESS)); [injection H as <- <-; apply RG|].
    destruct (negb (Z.eqb (ch_timer_arm ch) CIO_SUCCESS)); [injection H as <- <-; apply RG|].
    eapply (going_enq s k _ JClose _ _ _ _ _ _ [EvAccept JClose _ _; EvCall _] G H); try reflexivity; try discriminate. intros e e' [].
Qed.

Lemma going_fire s k rq f ch s' os : going s k -> fire C s rq f ch = Ret (s', os) -> going s' (os ++ k).
Proof.
  intros G H. pose proof G as (A & O & L). destruct (fire_comes _ _ _ _ _ _ H) as (os1 & -> & CO). rewrite <- app_assoc. cbn [app].
  assert (A2 : answering s (OBsReturn :: k)) by (apply (answering_on s k _ _ []); auto; intros e [X|X]; [discriminate|exact X]).
  destruct CO as [X1 (es & X2) X3 X4|s1 data X1 X2 X3|s1 addr data X1 X2 X3].
  - split; [|split].
    + apply (answering_on s (OBsReturn :: k) _ _ es); rewrite ?X1; auto. intros e X. apply in_app_or in X. destruct X as [X|X]; [destruct (X3 _ _ X)|exact X].
    + unfold others. rewrite X1. exact O.
    + destruct X4 as [X|[X|X]]; [do 3 right; left; exact X|do 4 right; left; exact X|apply lives_err, X].
  - unfold handle_ping_frame in X3. destruct (Nat.ltb 125 (length data)); [discriminate|].
    set (c := if Nat.ltb 0 (length data) then _ else _) in *. cbn [log T] in X3. rewrite X1 in X3.
    match type of X3 with enqueue_job C ?S _ _ _ _ = _ => set (s2 := S) in * end.
    assert (J2 : forall m, jobs (T s2) m = upd (jobs (T s)) JPong (Job (jnext (jobs (T s) JPong)) (Some c) (Some HPong) PONG_FRAME true (jcont (jobs (T s) JPong)) SHMessage) m) by reflexivity.
    assert (T2 : tr s2 = EvAccept JPong (jobs (T s2) JPong) (total_size c) :: EvControl PING_FRAME data :: tr s) by (cbn [s2 tr log set_T]; rewrite X2; reflexivity).
    pose proof (enqueue_frame C _ _ _ _ _ _ _ X3) as (_ & _ & JL & _ & _). split; [|split].
    + eapply enq_answering; [exact X3| |intros e e' []]. apply (answering_on s (OBsReturn :: k) _ _ [EvAccept JPong (jobs (T s2) JPong) (total_size c); EvControl PING_FRAME data]); auto.
      intros m. rewrite J2. destruct (jname_dec m JPong) as [-> | Hm]; [rewrite upd_same; cbn; discriminate|rewrite upd_other by exact Hm; auto].
    + apply (others_like s2); [exact JL|]. intros m Hm. rewrite J2, upd_other by exact Hm. apply O, Hm.
    + do 5 right. rewrite (waits_like _ _ JL). reflexivity.
  - unfold handle_close_frame in X3. binv X3. destruct a as [ccode rs|status len].
    { injection X3 as <- <-. split; [|split].
      - apply (answering_on s (OBsReturn :: k) _ _ []); rewrite ?X1; auto. intros e [X|X]; [discriminate|exact X].
      - unfold others. rewrite X1. exact O.
      - apply (lives_err _ _ [_]). reflexivity. }
    cbn [log selfc] in X3. destruct (selfc s1) eqn:SF.
    { injection X3 as <- <-. split; [|split].
      - apply (answering_on s (OBsReturn :: k) _ _ [EvControl CLOSE_FRAME data]); cbn [T set_timer log tr]; rewrite ?X1, ?X2; auto. intros e [X|X]; [discriminate|exact X].
      - unfold others. cbn [T set_timer log]. rewrite X1. exact O.
      - right; left. reflexivity. }
    set (reason := if 0 <? len then _ else _) in *.
    match type of X3 with enqueue_job C ?S _ _ _ _ = _ => set (s2 := S) in * end.
    assert (T2 : tr s2 = [EvAccept JClose (jobs (T s2) JClose) (close_size s2); EvControl CLOSE_FRAME data] ++ tr s) by (cbn [app]; rewrite <- X2; reflexivity).
    assert (J2 : forall m, m <> JClose -> jobs (T s2) m = jobs (T s) m). { intros m Hm. unfold s2, accept_close, prepare_close_job. cbn [T log set_T set_job set_jobs jobs]. rewrite upd_other by exact Hm. rewrite X1. reflexivity. }
    assert (P2 : peer_closed (tr s2) = true) by (rewrite T2; reflexivity).
    assert (A3 : answering s2 (OBsReturn :: k)) by (split; intros; exact P2).
    pose proof (enqueue_frame C _ _ _ _ _ _ _ X3) as (_ & TR & JL & _ & _). split; [|split].
    + eapply enq_answering; [exact X3|exact A3|intros e e' []].
    + apply (others_like s2); [exact JL|]. intros m Hm. destruct (jname_dec m JClose) as [-> | Hn]; [reflexivity|rewrite J2 by exact Hn; apply O, Hm].
    + right; left. destruct TR as [-> | [c ->]]; [exact P2|apply (peer_more [_]), P2].
Qed.

Theorem reach_going P s k : reach C P (s, k) -> going s k.
Proof.
  intros H. remember (s, k) as c eqn:Ec. revert s k Ec. induction H as [g L1 L2 L3 L4|c x c' Hr IH En Cd St]; intros s k Ec.
  - injection Ec as <- <-. split; [|split].
    + split; cbn; [|lia|intros e []]. intros n X. destruct n; cbn in X; congruence.
    + intros n Hn. destruct n; try reflexivity; congruence.
    + do 3 right. left. reflexivity.
  - subst c'. destruct c as [s0 k0]. pose proof (IH _ _ eq_refl) as G. destruct x as [ch|a ch|f ch|err|err]; cbn [step enabled] in *.
    + destruct k0 as [|o k0]; [destruct En as [X _]; congruence|]. unfold lift in St. binv St. destruct a as [s1 o1]. injection St as <- <-. cbn [fst snd].
      destruct G as (A & O & L). split; [eapply answering_op; eassumption|]. eapply live_op; try eassumption. apply (history C _ _ _ Hr).
    + unfold lift in St. binv St. destruct a0 as [s1 o1]. injection St as <- <-. cbn [fst snd]. eapply going_call; eassumption.
    + destruct En as (_ & _ & _ & _ & rq & RD & FO). rewrite RD in St. unfold lift in St. binv St. destruct a as [s1 o1]. injection St as <- <-. cbn [fst snd]. eapply going_fire; eassumption.
    + destruct En as (-> & _ & FL). injection St as <- <-. destruct G as (A & O & L). split; [|split; [exact O|]].
      * destruct A as [a1 a2 a3]. split; cbn [T set_T jobs set_bs inflight bswh tr]; [exact a1|intros _ X; apply a2; assumption|].
        intros e [X|[]]. injection X as X _. apply a2; assumption.
      * apply (lives_on s0 [] _ _ []); auto.
    + destruct En as (-> & _). injection St as <- <-. destruct G as (A & O & L). split; [|split; [exact O|]].
      * apply (answering_on s0 [] _ _ []); auto. intros e [X|[]]; discriminate.
      * apply (lives_on s0 [] _ _ []); auto.
Qed.
End L.
