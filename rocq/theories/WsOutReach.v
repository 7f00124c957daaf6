(** The sending side, concluded: every reachable state. *)
From Verif Require Import Base Utf8Model MaskModel MaskSpec EndianModel EndianSpec EndianProofs
  WsModel WsFrame WsSendProofs WsRecvSpec WsFrameSpec WsSend WsHistory WsTrace WsRecvProofs WsRecvReach WsClean WsRecvProps WsRecvProps2 WsQueue WsOutSpec WsArrive WsWire WsOut WsOutStep.
Open Scope N_scope.
Set Warnings "-unused-intro-pattern".

Section S.
Variable C : cfg.
Hypothesis HC : cfg_ok C.
Notation normal := (normal C).
Notation Inv := (WsOut.Inv C).
Notation inv0 := (inv0 C).
Notation weak := (weak C).

(** ** No error so far *)
Lemma one_pong q : NoDup q -> Forall (fun n => n = JPong) q -> q = [] \/ q = [JPong].
Proof.
  intros N H. destruct H as [|n q -> H]; [left; reflexivity|]. right. destruct H as [|m q -> H]; [reflexivity|]. inversion N as [|? ? X _]; subst. destruct X. left. reflexivity.
Qed.

Lemma abort_step s k q ch s' os :
  base (T s) (tr s) (OAbort :: k) q -> normal (T s) (tr s) (selfc s) (OAbort :: k) q ->
  run_op C s OAbort ch = Ret (s', os) -> exists q', inv0 s' (os ++ k) q' /\ cbe s' = cbe s.
Proof.
  intros B N H. pose proof (n_tail _ _ _ _ _ _ N) as K. cbn [tl] in K. pose proof (n_tok _ _ _ _ _ _ N) as (T1 & T2 & T3).
  cbn [run_op] in H. destruct (one_pong q) as [-> | ->]; [apply B|exact T3| |].
  - rewrite rep_pop_nil in H by apply B. injection H as <- <-. exists []. split; [|reflexivity].
    split; [apply (base_swap (T s) (tr s) (tr s) [OAbort] [] k); [exact B|exact K|constructor|reflexivity|reflexivity]|].
    left. cbn [T set_T tr selfc app]. destruct N as [n1 n2 n3 n4 n5 n6 n7 n8 n9 n10 n11 n12 n13 n14]. split; try assumption; try exact I.
    + destruct K; [constructor|assumption].
    + destruct K as [|o k Ho Hk]; [exact I|apply idle_top, Ho].
    + apply (tok_out (T s) k []); [apply idle_no_abort, K|]. rewrite T1, T2, (idle_nstream _ K). reflexivity.
    + intros m Hm. destruct (nnext_0 _ _ T2 Hm).
  - pose proof (n_ready _ _ _ _ _ _ N JPong (or_introl eq_refl)) as [WB [RS RH]]. destruct (rep_pop _ _ _ (b_rep _ _ _ _ B)) as [E _]. rewrite E in H. cbn [jobs set_first hd_error] in H.
    injection H as <- <-. exists []. split; [|reflexivity]. split.
    + change (set_job (set_first (T s) None) JPong (set_wbh (jobs (T s) JPong) None)) with (popped (T s) JPong []).
      apply (popped_base (T s) (tr s) [OAbort]); try assumption; reflexivity.
    + right. split; [|split; [eapply normal_weak; exact N|cbn [T set_T popped set_job set_jobs set_first inflight]; lia]]. eexists _, _. split; [reflexivity|]. split; [exact RH|discriminate].
Qed.

Lemma normal_op s o k q ch s' os : jhandler (jobs (T s) JClose) <> Some HPong -> choice_ok ch ->
  base (T s) (tr s) (o :: k) q -> normal (T s) (tr s) (selfc s) (o :: k) q ->
  run_op C s o ch = Ret (s', os) -> exists q', inv0 s' (os ++ k) q' /\ cbe s' = cbe s.
Proof.
  intros NP CH B N H. pose proof (n_tail _ _ _ _ _ _ N) as K. cbn [tl] in K. pose proof (n_top _ _ _ _ _ _ N) as TO. cbn in TO.
  assert (SW : forall es, T s' = T s -> tr s' = es ++ tr s -> Forall still es -> selfc s' = selfc s -> cbe s' = cbe s -> neutral o -> op_usr o = [] ->
     Forall neutral os -> match os with [] => True | o :: os' => (top_ok o \/ err_op o) /\ Forall idle os' end -> pend os = [] -> exists q', inv0 s' (os ++ k) q' /\ cbe s' = cbe s).
  { intros es E1 E2 E3 E4 E5 NO UO NS TS PS. exists q. split; [|exact E5]. apply (swap_still C s s' es [o] os k q); try assumption.
    - intros X. congruence.
    - constructor; [exact NO|constructor].
    - rewrite pend_cons, UO. reflexivity. }
  destruct o; try (destruct TO; fail).
  - injection H as <- <-. apply (SW []); try reflexivity; repeat constructor.
  - injection H as <- <-. apply (SW []); try reflexivity; repeat constructor.
  - eapply abort_step; eassumption.
  - cbn [run_op] in H. destruct (hasrh s); injection H as <- <-; [apply (SW [EvEof])|apply (SW [])]; try reflexivity; repeat constructor.
  - cbn [run_op] in H. injection H as <- <-. apply (SW [EvHook]); try reflexivity; repeat constructor.
  - exists (tl q). eapply stream_step; eassumption.
  - cbn [run_op] in H. unfold call_handler in H. destruct h as [[id|]|].
    + injection H as <- <-. exists q. split; [|reflexivity]. cbn [app]. split.
      * apply (base_swap (T s) (tr s) _ [OHandler n (Some (HUser id)) err c] [OUser] k q B K); [constructor|apply app_nil_r|].
        unfold dones. cbn [tr log collect done_of pend flat_map op_usr app usr]. rewrite !app_nil_r. reflexivity.
      * left. apply (normal_swap C (T s) (tr s) (EvWriteDone n id err c :: tr s) (selfc s) (selfc s) [OHandler n (Some (HUser id)) err c] [OUser] k q N); try assumption; try reflexivity; try (repeat constructor); try apply app_nil_r; auto.
        exact (n_turn _ _ _ _ _ _ N).
    + injection H as <- <-. apply (SW []); try reflexivity; try (repeat constructor).
      * cbn. destruct (mp n); reflexivity.
      * apply TO. reflexivity.
    + injection H as <- <-. apply (SW []); try reflexivity; try (repeat constructor). cbn. destruct (mp n); reflexivity.
  - cbn [run_op] in H. unfold call_handler in H. destruct (jhandler (jobs (T s) JClose)) as [[id|]|]; [|congruence|]; injection H as <- <-.
    + apply (SW [EvWriteDone JClose id err c]); try reflexivity; repeat constructor.
    + apply (SW []); try reflexivity; repeat constructor.
  - destruct j as [n|]; [exists q; eapply send_step; eassumption|]. injection H as <- <-. apply (SW []); try reflexivity; repeat constructor.
  - cbn [run_op top_ok] in *. rewrite TO in H. cbn [Z.eqb negb CIO_SUCCESS] in H. unfold bs_read in H. destruct (_ && _)%bool.
    + injection H as <- <-. apply (SW []); try reflexivity; first [solve [repeat constructor]|split; [right; exact I|constructor]].
    + injection H as <- <-. apply (SW []); try reflexivity; destruct (Nat.eqb _ _); repeat constructor.
  - injection H as <- <-. apply (SW []); try reflexivity; repeat constructor.
  - injection H as <- <-. apply (SW [EvRet err]); try reflexivity; repeat constructor.
Qed.

(** ** An error was noticed *)
Lemma erring_op s o k q ch s' os : cbe s = false -> base (T s) (tr s) (o :: k) q -> erring C (T s) (tr s) (o :: k) ->
  run_op C s o ch = Ret (s', os) -> Inv s' (os ++ k) q.
Proof.
  intros CB B [(o' & k' & E & EO) W] H. injection E as <- <-. pose proof (b_top _ _ _ _ B) as BT. cbn [tl] in BT.
  assert (GO : forall o1, T s' = T s -> tr s' = tr s -> cbe s' = false -> os = [o1] -> err_op o1 -> op_usr o = [] -> op_usr o1 = [] -> Inv s' (os ++ k) q).
  { intros o1 E1 E2 E3 -> E5 U U1. unfold WsOut.Inv. rewrite E1, E2, E3. split.
    - apply (base_still _ _ (o :: k) _ []); [constructor|exact BT|cbn [app]; rewrite !pend_cons, U, U1; reflexivity|exact B].
    - right. split; [eexists _, _; split; [reflexivity|exact E5]|exact W]. }
  destruct o; try (destruct EO; fail); cbn [run_op] in H.
  - rewrite CB in H. injection H as <- <-. split.
    + apply (base_still _ _ (OHandleError err code reason :: k) _ [EvError err reason]); [repeat constructor|exact BT|reflexivity|exact B].
    + left. exists [], code, reason, k. split; [reflexivity|left; reflexivity].
  - destruct EO as [-> EO]. injection H as <- <-. eapply GO; try reflexivity; try assumption. cbn. destruct (mp n); reflexivity.
  - destruct (Z.eqb_spec err CIO_SUCCESS) as [X|X]; [congruence|]. cbn [negb] in H. injection H as <- <-. eapply GO; try reflexivity; assumption.
Qed.

(** ** The error was reported: the waiting writes are aborted *)
Lemma abort_op_step s k q ch s' os : cbe s = true -> base (T s) (tr s) k q -> aborting k ->
  forall o k', k = o :: k' -> run_op C s o ch = Ret (s', os) -> exists q', base (T s') (tr s') (os ++ k') q' /\ cbe s' = true /\ (aborting (os ++ k') \/ after (os ++ k') q').
Proof.
  intros CB B (top & c & r & k0 & -> & TOP) o k' E H. destruct TOP as [-> | (o' & -> & AO)].
  - cbn [app] in E. injection E as <- <-. cbn [run_op] in H. pose proof (b_top _ _ _ _ B) as BT. cbn [app tl] in BT. destruct q as [|n q].
    + rewrite rep_pop_nil in H by apply B. injection H as <- <-. exists []. cbn [app T set_T tr cbe]. split; [|split; [exact CB|right; split; [exact BT|constructor]]].
      apply (base_still _ _ (OAbort :: OErrClose c r :: k0) _ []); [constructor| |reflexivity|exact B]. rewrite pend_cons in BT. exact BT.
    + destruct (rep_pop _ _ _ (b_rep _ _ _ _ B)) as [D R]. rewrite D in H. cbn [jobs set_first] in H. injection H as <- <-. exists q.
      cbn [app T set_T tr cbe]. split; [|split; [exact CB|]].
      * change (set_job (set_first (T s) (hd_error q)) n (set_wbh (jobs (T s) n) None)) with (popped (T s) n q). destruct B as [b1 b2 b3]. split; [apply popped_rep, b1|exact BT|].
        change (pend ([] ++ OAbort :: OErrClose c r :: k0)) with (pend (OErrClose c r :: k0)) in b3. rewrite BT in b3. cbn [app] in b3. rewrite b3, pend_cons.
        change (pend (OAbort :: OErrClose c r :: k0)) with (pend (OErrClose c r :: k0)). rewrite BT, app_nil_r. cbn [op_usr].
        rewrite (qusers_ext (T s) (popped (T s) n q)) by (intros m _; apply popped_handler). reflexivity.
      * left. eexists [_], c, r, k0. split; [reflexivity|]. right. eexists. split; [reflexivity|discriminate].
  - cbn [app] in E, B. injection E as <- <-. pose proof (b_top _ _ _ _ B) as BT. cbn [app tl] in BT. destruct B as [b1 b2 b3].
    assert (BT2 : pend (OErrClose c r :: k0) = []) by (rewrite pend_cons in BT; exact BT).
    assert (AB : forall top', top' = [] \/ (exists o, top' = [o] /\ abort_op o) -> aborting (top' ++ OAbort :: OErrClose c r :: k0)) by (intros top' X; exists top', c, r, k0; auto).
    destruct o'; try (destruct AO; fail); cbn [run_op] in H.
    + injection H as <- <-. exists q. split; [split; [exact b1|exact BT2|exact b3]|]. split; [exact CB|left]. apply (AB []). left. reflexivity.
    + rewrite CB in H. injection H as <- <-. exists q. split; [split; [exact b1|exact BT2|exact b3]|]. split; [exact CB|left]. apply (AB []). left. reflexivity.
    + cbn [abort_op] in AO. unfold call_handler in H. rewrite pend_cons, BT in b3. destruct h as [[id|]|]; injection H as <- <-; exists q.
      * split; [split; [exact b1|exact BT|]|split; [exact CB|left; apply (AB [OUser]); right; eexists; split; [reflexivity|exact I]]].
        unfold accepts, dones in *. cbn [tr log collect acc_of done_of app]. rewrite app_nil_r, pend_cons, BT. cbn [op_usr app usr] in *. rewrite app_nil_r in b3. rewrite b3.
        destruct (mp n); cbn [app]; rewrite ?app_nil_r, <- ?app_assoc; reflexivity.
      * split; [split; [exact b1|exact BT|]|split; [exact CB|left; apply (AB [OPongWritten err]); right; eexists; split; [reflexivity|exact AO]]].
        cbn [app]. rewrite pend_cons, BT. rewrite b3. cbn. destruct (mp n); reflexivity.
      * split; [split; [exact b1|exact BT2|]|split; [exact CB|left; apply (AB []); left; reflexivity]].
        cbn [app]. rewrite BT. rewrite b3. cbn. destruct (mp n); reflexivity.
    + cbn [abort_op] in AO. destruct (Z.eqb_spec err CIO_SUCCESS) as [X|X]; [congruence|]. cbn [negb] in H. injection H as <- <-. exists q.
      split; [split; [exact b1|exact BT|exact b3]|split; [exact CB|left; apply (AB [OHandleError _ _ _]); right; eexists; split; [reflexivity|exact I]]].
Qed.

(** ** Afterwards *)
Definition soft (e : ev) : Prop := match e with EvAccept n _ _ => mp n = false | EvWriteDone n _ _ _ => mp n = false | _ => True end.
Lemma soft_users es l : Forall soft es -> musers (accepts (es ++ l)) = musers (accepts l) /\ dones (es ++ l) = dones l.
Proof.
  intros H. induction H as [|e es He Hes [I1 I2]]; [split; reflexivity|]. unfold accepts, dones in *. cbn [app collect]. unfold musers in *. rewrite flat_map_app, I1, I2.
  destruct e; cbn [acc_of done_of flat_map app]; rewrite ?app_nil_r; try (split; reflexivity); cbn in He.
  - rewrite He, app_nil_r. split; reflexivity.
  - unfold ent_usr. cbn [ent_name fst]. rewrite He. cbn [app]. rewrite app_nil_r. split; reflexivity.
Qed.
Record done_all (t : tx) (l : list ev) (k : list op) : Prop := {
  da_q : exists q, rep t q /\ Forall (fun n => mp n = false) q;
  da_k : pend k = [];
  da_u : musers (accepts l) = dones l }.
Lemma soft_qusers t q : Forall (fun n => mp n = false) q -> qusers t q = [].
Proof. intros H. induction H as [|n q Hn Hq IH]; [reflexivity|]. unfold qusers in *. cbn. rewrite Hn, IH. reflexivity. Qed.
Lemma pend_tl k : pend k = [] -> pend (tl k) = [].
Proof. destruct k as [|o k]; [auto|]. rewrite pend_cons. intros H. apply app_eq_nil in H. apply H. Qed.
Lemma after_in t l k q : base t l k q -> after k q -> done_all t l k.
Proof. intros [b1 b2 b3] [A1 A2]. split; [eauto|exact A1|]. rewrite b3, A1, (soft_qusers _ _ A2), app_nil_r. reflexivity. Qed.
Lemma after_out t l k : done_all t l k -> exists q, base t l k q /\ after k q.
Proof.
  intros [(q & R & Q) P U]. exists q. split; [|split; assumption]. split; [exact R|apply pend_tl, P|]. rewrite P, U, (soft_qusers _ _ Q), app_nil_r. reflexivity.
Qed.
Lemma da_step t l k t' es k' : done_all t l k -> Forall soft es -> pend k' = [] -> (forall q, rep t q -> Forall (fun n => mp n = false) q -> exists q', rep t' q' /\ Forall (fun n => mp n = false) q') ->
  done_all t' (es ++ l) k'.
Proof.
  intros [(q & R & Q) P U] S K RR. destruct (soft_users es l S) as [S1 S2]. split; [apply (RR q); assumption|exact K|]. rewrite S1, S2. exact U.
Qed.
Lemma soft_push s n j len ch kerr s' os q : mp n = false -> rep (T s) q -> Forall (fun m => mp m = false) q -> jnext j = jnext (jobs (T s) n) -> (forall e, pend (kerr e) = []) ->
  forall s1, jobs (T s1) = upd (jobs (T s)) n j -> first (T s1) = first (T s) -> last (T s1) = last (T s) ->
  enqueue_job C s1 n len ch kerr = Ret (s', os) ->
  exists q' es, rep (T s') q' /\ Forall (fun m => mp m = false) q' /\ pend os = [] /\ tr s' = es ++ tr s1 /\ Forall soft es /\ cbe s' = cbe s1.
Proof.
  intros M R Q EN KE s1 EJ EF EL H.
  assert (R1 : rep (T s1) q). { apply (rep_ext (T s)); [exact EF|exact EL| |exact R]. intros m. rewrite EJ. destruct (jname_dec m n) as [-> | Hm]; [rewrite upd_same; exact EN|rewrite upd_other by assumption; reflexivity]. }
  unfold enqueue_job in H. destruct (first (T s1)) as [f|] eqn:F.
  - destruct (last (T s1)) as [lj|] eqn:LJ; [|discriminate]. injection H as <- <-. fold (link_last (T s1) lj n). cbn [T set_T tr cbe].
    destruct (in_dec jname_dec n q) as [IN|NI].
    + exists (upto n q), []. split; [apply rep_again; assumption|]. split; [rewrite Forall_forall in *; intros x X; apply Q, (upto_in n), X|]. repeat split; constructor.
    + exists (q ++ [n]), []. split; [apply rep_push; try assumption; intros ->; destruct R1 as [_ R1]; congruence|]. split; [apply Forall_app; split; [exact Q|repeat constructor; exact M]|]. repeat split; constructor.
  - binv H. destruct a as [s2 r]. cbn [fst snd] in H. apply send_frame_frame in E. destruct E as (E1 & (c & c0 & ET & _) & E3 & E4 & E5 & E6 & E7 & E8 & E9 & E10).
    cbn [T set_T first last set_last set_first jobs tr] in *.
    assert (X : s' = s2 /\ pend os = []). { destruct r; injection H as <- <-; (split; [reflexivity|]); try reflexivity. rewrite pend_cons. apply KE. }
    destruct X as [-> X]. exists [n], [EvSend n c]. split; [split; [repeat constructor; intros []|split; [exact E6|split; [exact I|exact E7]]]|]. split; [repeat constructor; exact M|]. split; [exact X|]. split; [exact ET|]. split; [repeat constructor|apply E1].
Qed.

Lemma after_op s o k ch s' os : cbe s = true -> done_all (T s) (tr s) (o :: k) -> run_op C s o ch = Ret (s', os) -> done_all (T s') (tr s') (os ++ k) /\ cbe s' = true.
Proof.
  intros CB D H. pose proof (da_k _ _ _ D) as P. rewrite pend_cons in P. apply app_eq_nil in P. destruct P as [PO PK].
  assert (ID : forall es, T s' = T s -> tr s' = es ++ tr s -> Forall soft es -> cbe s' = cbe s -> pend os = [] -> done_all (T s') (tr s') (os ++ k) /\ cbe s' = true).
  { intros es -> -> S -> PS. split; [|exact CB]. eapply da_step; [exact D|exact S|rewrite pend_app, PS, PK; reflexivity|]. intros q R Q. exists q. auto. }
  assert (PP : forall t n t', dequeue_job (T s) = (Some n, t') -> jwbh t = None -> jnext t = jnext (jobs (T s) n) -> s' = set_T s (set_job t' n t) ->
     (mp n = false -> pend os = []) -> done_all (T s') (tr s') (os ++ k) /\ cbe s' = true).
  { intros t n t' E1 E2 E3 -> PS. destruct (da_q _ _ _ D) as (q & R & Q). destruct q as [|m q]; [rewrite rep_pop_nil in E1 by exact R; discriminate|].
    destruct (rep_pop _ _ _ R) as [E R']. rewrite E in E1. injection E1 as <- <-. inversion Q as [|? ? Q1 Q2]; subst. split; [|exact CB]. split.
    - exists q. split; [|exact Q2]. apply set_job_rep; [exact R'|exact E3].
    - rewrite pend_app, PS, PK by exact Q1. reflexivity.
    - apply (da_u _ _ _ D). }
  destruct o; cbn [run_op] in H.
  - injection H as <- <-. apply (ID []); try reflexivity; repeat constructor.
  - injection H as <- <-. apply (ID []); try reflexivity; repeat constructor.
  - rewrite CB in H. injection H as <- <-. apply (ID []); try reflexivity; repeat constructor.
  - destruct (dequeue_job (T s)) as [[n|] t] eqn:DQ.
    + pose proof (dequeue_jobs _ _ _ DQ) as DJ. injection H as <- <-. apply (PP (set_wbh (jobs t n) None) n t eq_refl); [reflexivity|rewrite DJ; reflexivity|reflexivity|intros M; cbn; rewrite M; reflexivity].
    + injection H as <- <-. unfold dequeue_job in DQ. destruct (first (T s)); [destruct (opt_eqb _ _); discriminate|]. injection DQ as <-. apply (ID []); try reflexivity; repeat constructor.
  - destruct (da_q _ _ _ D) as (q & R & Q).
    apply (soft_push s JClose (jobs (T (prepare_close_job C s code (Some reason) None SHCloseImmediate ch)) JClose) _ _ _ _ _ q) in H; try assumption; try reflexivity.
    destruct H as (q' & es & R' & Q' & PS & ET & ES & EC). split; [|rewrite EC; exact CB]. rewrite ET. split.
    + eauto.
    + rewrite pend_app, PS, PK. reflexivity.
    + destruct (soft_users es (tr (accept_close (prepare_close_job C s code (Some reason) None SHCloseImmediate ch))) ES) as [-> ->].
      destruct (soft_users [EvAccept JClose (jobs (T (prepare_close_job C s code (Some reason) None SHCloseImmediate ch)) JClose) (close_size (prepare_close_job C s code (Some reason) None SHCloseImmediate ch))] (tr s)) as [S1 S2]; [repeat constructor|].
      cbn [app] in S1, S2. unfold accept_close, prepare_close_job in *. cbn [tr log set_T] in *. rewrite S1, S2. apply (da_u _ _ _ D).
  - destruct (hasrh s); injection H as <- <-; [apply (ID [EvEof])|apply (ID [])]; try reflexivity; repeat constructor.
  - injection H as <- <-. apply (ID [EvHook]); try reflexivity; repeat constructor.
  - binv H. destruct a as [[t n] c]. unfold write_jobs_popfront in E. destruct (dequeue_job (T s)) as [[n0|] t1] eqn:DQ; [|discriminate].
    pose proof (dequeue_jobs _ _ _ DQ) as DJ. destruct (jwbh (jobs t1 n0)) as [c0|] eqn:W; [|discriminate]. injection E as <- <- <-.
    assert (JN : jnext (set_wbh (jobs t1 n0) None) = jnext (jobs (T s) n0)) by (rewrite DJ; reflexivity).
    destruct sh; [destruct (jhandler _) eqn:JH; [|discriminate]| | |]; injection H as <- <-; apply (PP (set_wbh (jobs t1 n0) None) n0 t1 eq_refl eq_refl JN eq_refl); intros M; cbn; unfold close_handler; try (destruct n0; try discriminate M); try rewrite M; reflexivity.
  - unfold call_handler in H. destruct h as [[id|]|]; injection H as <- <-.
    + apply (ID [EvWriteDone n id err c]); try reflexivity. repeat constructor. cbn in *. destruct (mp n); [discriminate|reflexivity].
    + apply (ID []); try reflexivity; repeat constructor.
    + apply (ID []); try reflexivity; repeat constructor.
  - unfold call_handler in H. destruct (jhandler _) as [[id|]|]; injection H as <- <-.
    + apply (ID [EvWriteDone JClose id err c]); try reflexivity; repeat constructor.
    + apply (ID []); try reflexivity; repeat constructor.
    + apply (ID []); try reflexivity; repeat constructor.
  - destruct j as [n|]; [|injection H as <- <-; apply (ID []); try reflexivity; repeat constructor]. destruct (jwbh _) as [c0|]; [|discriminate]. binv H. destruct a as [s2 r]. cbn [fst snd] in H.
    apply send_frame_frame in E. destruct E as (E1 & (c & c1 & ET & _) & E3 & E4 & E5 & E6 & E7 & E8 & E9 & E10).
    assert (X : s' = s2 /\ pend os = []). { destruct r; injection H as <- <-; split; reflexivity. } destruct X as [-> X].
    split; [|destruct E1 as (_ & E1 & _); congruence]. rewrite ET. apply (da_step _ _ _ _ [EvSend n c] _ D); [repeat constructor|rewrite pend_app, X, PK; reflexivity|].
    intros q R Q. exists q. split; [|exact Q]. apply (rep_ext (T s)); [exact E6|exact E7| |exact R]. intros m. destruct (jname_dec m n) as [-> | Hm]; [exact E3|rewrite E4 by assumption; reflexivity].
  - destruct (negb _); [injection H as <- <-; apply (ID []); try reflexivity; repeat constructor|]. unfold bs_read in H. destruct (_ && _)%bool; injection H as <- <-; apply (ID []); try reflexivity; try constructor.
    destruct (Nat.eqb _ _); reflexivity.
  - injection H as <- <-. apply (ID []); try reflexivity; repeat constructor.
  - injection H as <- <-. apply (ID [EvRet err]); try reflexivity; repeat constructor.
Qed.

(** ** The application calls *)
Lemma normal_unused t l sc k q n j : normal t l sc k q -> ~ In n q -> mp n = false -> normal (set_job t n j) l sc k q.
Proof.
  intros [n1 n2 n3 n4 n5 n6 n7 n8 n9 n10 n11 n12 n13 n14] NI M.
  assert (O : forall m, In m q -> jobs (set_job t n j) m = jobs t m) by (intros m Hm; cbn; apply upd_other; intros ->; exact (NI Hm)).
  split; try assumption.
  - destruct q as [|m q]; [exact I|]. rewrite O by (left; reflexivity). exact n4.
  - intros m Hm. rewrite O by exact Hm. apply n6, Hm.
  - intros m M1 M2. assert (m <> n) by congruence. cbn. rewrite upd_other by assumption. apply n7; assumption.
  - destruct n14 as (m0 & D & Q & w1 & w2 & w3 & w4 & w5). exists m0, D, Q. change (hs (set_job t n j) k) with (hs t k).
    assert (O' : forall a, In a Q -> jobs (set_job t n j) (ent_name a) = jobs t (ent_name a)) by (intros a Ha; apply O; rewrite <- w2; apply in_map, Ha).
    repeat split; try assumption.
    + rewrite Forall_forall in *. intros a Ha. rewrite O'; [apply w4, Ha|]. rewrite <- (firstn_skipn (hs t k) Q). apply in_or_app. right. exact Ha.
    + rewrite Forall_forall in *. intros a Ha. rewrite O' by exact Ha. apply w5, Ha.
Qed.
Lemma base_unused t l k q n j : base t l k q -> ~ In n q -> jnext j = jnext (jobs t n) -> base (set_job t n j) l k q.
Proof.
  intros [b1 b2 b3] NI E. split; [apply set_job_rep; assumption|exact b2|]. rewrite b3. do 2 f_equal. symmetry. apply qusers_ext. intros m Hm. cbn. rewrite upd_other by (intros ->; exact (NI Hm)). reflexivity.
Qed.
Lemma close_chain s code reason h sh ch : match reason with None => True | Some l => bytes_ok l end ->
  exists b, jobs (T (prepare_close_job C s code reason h sh ch)) JClose = Job (jnext (jobs (T s) JClose)) (Some [(ch_addr ch, b)]) h 8 true (jcont (jobs (T s) JClose)) sh /\
    close_size (prepare_close_job C s code reason h sh ch) = N.of_nat (length b) /\ bytes_ok b /\ (2 <= length b <= 125)%nat /\ b = be_bytes 2 code ++ (match reason with Some r => firstn 123 r | None => [] end).
Proof.
  intros HB. destruct reason as [r|].
  - destruct (close_payload C s code r h sh ch) as [E1 E2]. exists (be_bytes 2 code ++ firstn 123 r). split; [exact E2|]. split; [rewrite E1, app_length, be_bytes_length; reflexivity|].
    split; [apply bytes_ok_app; split; [apply be_bytes_ok|apply bytes_ok_firstn, HB]|]. split; [|reflexivity]. rewrite app_length, be_bytes_length, firstn_length. lia.
  - exists (be_bytes 2 code). assert (E : jobs (T (prepare_close_job C s code None h sh ch)) JClose = Job (jnext (jobs (T s) JClose)) (Some [(ch_addr ch, be_bytes 2 code)]) h 8 true (jcont (jobs (T s) JClose)) sh).
    { unfold prepare_close_job. cbn [T set_T set_job set_jobs jobs]. rewrite upd_same. rewrite htobe_memory. change 65536 with (256 ^ N.of_nat 2). rewrite be_bytes_mod. reflexivity. }
    split; [exact E|]. split; [unfold close_size; rewrite E; unfold total_size, chain_bytes; cbn [jwbh map concat snd]; rewrite app_nil_r; reflexivity|]. split; [apply be_bytes_ok|]. rewrite be_bytes_length. split; [lia|symmetry; apply app_nil_r].
Qed.
Lemma msg_not_waiting t l sc k q : base t l k q -> normal t l sc k q -> pend k = [] -> msg_idle l -> ~ In JMsg q.
Proof.
  intros [b1 b2 b3] N P M IN. unfold msg_idle in M. rewrite b3, P in M. cbn [app] in M. rewrite filter_app in M. rewrite <- (app_nil_r (filter of_msg (dones l))) in M at 1. apply app_inv_head in M. symmetry in M.
  destruct (n_ready _ _ _ _ _ _ N JMsg IN) as (_ & _ & id & JH). apply in_split in IN. destruct IN as (q1 & q2 & ->). unfold qusers in M. rewrite flat_map_app, filter_app in M. apply app_eq_nil in M. destruct M as [_ M].
  cbn in M. rewrite JH in M. discriminate.
Qed.

Lemma call_step s a ch s' os k q : proper (s, k) (XApi a ch) -> cbe s = false -> base (T s) (tr s) k q -> normal (T s) (tr s) (selfc s) k q -> calm_top k -> choice_ok ch -> api_ok a ->
  call C s a ch = Ret (s', os) -> exists q', Inv s' (os ++ k) q'.
Proof.
  intros PR CB B N K CH AO H. destruct (calm_idle _ _ _ _ _ _ N K) as [KI TK].
  assert (SW : forall es, T s' = T s -> tr s' = es ++ tr s -> Forall still es -> (selfc s = true -> selfc s' = true) -> cbe s' = cbe s ->
     Forall neutral os -> match os with [] => True | o :: os' => (top_ok o \/ err_op o) /\ Forall idle os' end -> pend os = [] -> exists q', Inv s' (os ++ k) q').
  { intros es E1 E2 E3 E4 E5 NS TS PS. exists q. apply inv0_Inv; [congruence|]. apply (swap_still C s s' es [] os k q); try assumption; constructor. }
  cbn [proper fst] in PR. destruct PR as [OV PR]. unfold call, refuse in H. destruct a as [|id flen p lf bin|id p|id p|id p|id code reason].
  - cbn [log R set_hasrh rem] in H. unfold bs_read in H. destruct (rem (R s) =? 0); destruct (_ && _)%bool; injection H as <- <-; apply (SW [EvCall ARead]); try reflexivity; auto;
      first [solve [repeat constructor] | solve [split; [right; exact I|constructor]] | destruct (Nat.eqb _ _); repeat constructor].
  - destruct id as [id|]; [|injection H as <- <-; apply (SW [EvRefuse CIO_INVALID_ARGUMENT; EvCall (AFirst None flen p lf bin)]); try reflexivity; auto; repeat constructor].
    cbn [log T] in H. destruct (jwbh (jobs (T s) JMsg)) eqn:W; [injection H as <- <-; apply (SW [EvRefuse CIO_OPERATION_NOT_PERMITTED; EvCall (AFirst (Some id) flen p lf bin)]); try reflexivity; auto; repeat constructor|].
    destruct PR as [PN PC]. destruct p as [c|]; [|congruence]. exists (q ++ [JMsg]). destruct AO as [[AO1 AO2] AO3].
    destruct (if fragw (T s) then _ else _) as [kind fw] eqn:KD.
    assert (KB : kind < 16). { destruct (fragw (T s)); injection KD as <- <-; [destruct bin|]; reflexivity. }
    eapply (push C HC s k q JMsg (Job (jnext (jobs (T s) JMsg)) (Some c) (Some (HUser id)) kind lf false SHMessage) flen [EvCall (AFirst (Some id) flen (Some c) lf bin)]) in H; try eassumption; try reflexivity; auto.
    + repeat constructor.
    + intros X. destruct (n_ready _ _ _ _ _ _ N JMsg X) as [Y _]. congruence.
    + intros X. exfalso. rewrite (n_cls1 _ _ _ _ _ _ N X) in PC. discriminate.
    + split; [discriminate|]. split; [reflexivity|]. exists id. reflexivity.
    + split; [|exact AO3]. split; [intros _; exact KB|]. exists c. auto.
    + discriminate.
    + intros e. repeat constructor.
  - destruct PR as (PI & PN & PC & PM). destruct id as [id|]; [|congruence]. destruct p as [c|]; [|congruence]. exists (q ++ [JMsg]). destruct AO as [AO1 AO2]. cbn [log T] in H.
    eapply (push C HC s k q JMsg (Job (jnext (jobs (T s) JMsg)) (Some c) (Some (HUser id)) (jtype (jobs (T s) JMsg)) (jlast (jobs (T s) JMsg)) true SHMessage) 0 [EvCall (ACont (Some id) (Some c))]) in H; try eassumption; try reflexivity; auto.
    + repeat constructor.
    + eapply msg_not_waiting; try eassumption. apply idle_pend, KI.
    + intros X. exfalso. rewrite (n_cls1 _ _ _ _ _ _ N X) in PC. discriminate.
    + split; [discriminate|]. split; [reflexivity|]. exists id. reflexivity.
    + split; [|discriminate]. split; [discriminate|]. exists c. auto.
    + discriminate.
    + intros e. repeat constructor.
  - destruct PR as [PN PC]. unfold write_ping_or_pong, refuse in H.
    destruct id as [id|]; [|injection H as <- <-; apply (SW [EvRefuse CIO_INVALID_ARGUMENT; EvCall (APing None p)]); try reflexivity; auto; repeat constructor].
    destruct (negb _) eqn:LIM; [injection H as <- <-; apply (SW [EvRefuse CIO_INVALID_ARGUMENT; EvCall (APing (Some id) p)]); try reflexivity; auto; repeat constructor|].
    cbn [log T] in H. destruct (jwbh (jobs (T s) JPing)) eqn:W; [injection H as <- <-; apply (SW [EvRefuse CIO_OPERATION_NOT_PERMITTED; EvCall (APing (Some id) p)]); try reflexivity; auto; repeat constructor|].
    destruct p as [c|]; [|congruence]. exists (q ++ [JPing]). destruct AO as [AO1 AO2].
    eapply (push C HC s k q JPing (Job (jnext (jobs (T s) JPing)) (Some c) (Some (HUser id)) PING_FRAME true (jcont (jobs (T s) JPing)) SHMessage) (total_size c) [EvCall (APing (Some id) (Some c))]) in H; try eassumption; try reflexivity; auto.
    + repeat constructor.
    + intros X. destruct (n_ready _ _ _ _ _ _ N JPing X) as [Y _]. congruence.
    + intros X. exfalso. rewrite (n_cls1 _ _ _ _ _ _ N X) in PC. discriminate.
    + split; [discriminate|]. split; [reflexivity|]. exists id. reflexivity.
    + split; [|exact AO2]. split; [intros _; reflexivity|]. exists c. auto.
    + discriminate.
  - destruct PR.
  - destruct id as [id|]; [|injection H as <- <-; apply (SW [EvRefuse CIO_INVALID_ARGUMENT; EvCall (AClose None code reason)]); try reflexivity; auto; repeat constructor].
    cbn [log T] in H. destruct (jwbh (jobs (T s) JClose)) eqn:W; [injection H as <- <-; apply (SW [EvRefuse CIO_OPERATION_NOT_PERMITTED; EvCall (AClose (Some id) code reason)]); try reflexivity; auto; repeat constructor|].
    assert (NI : ~ In JClose q). { intros X. rewrite (n_cls1 _ _ _ _ _ _ N X) in PR. discriminate. }
    set (s0 := log s (EvCall (AClose (Some id) code reason))) in *. destruct AO as [AO1 AO2].
    destruct (close_chain s0 code reason (Some (HUser id)) SHClose ch AO2) as (b & JB & CS & BO & BL & _). set (s1 := prepare_close_job C s0 code reason (Some (HUser id)) SHClose ch) in *.
    assert (J1 : T s1 = set_job (T s) JClose (jobs (T s1) JClose)) by (unfold s1, prepare_close_job; cbn [T set_T set_job set_jobs jobs]; rewrite upd_same; reflexivity).
    assert (RF : forall e, Inv (log s1 (EvRefuse e)) k q).
    { intros e. apply inv0_Inv; [exact CB|].
      assert (B1 : base (T s1) (tr s) k q) by (rewrite J1; apply base_unused; [exact B|exact NI|rewrite JB; reflexivity]).
      assert (N1 : normal (T s1) (tr s) (selfc s) k q) by (rewrite J1; apply normal_unused; [exact N|exact NI|reflexivity]).
      apply (swap_still C (set_T s (T s1)) (log s1 (EvRefuse e)) [EvRefuse e; EvCall (AClose (Some id) code reason)] [] [] k q); try assumption; try reflexivity; auto; repeat constructor. }
    destruct (negb (Z.eqb (ch_timer_init ch) CIO_SUCCESS)); [injection H as <- <-; exists q; apply RF|].
    destruct (negb (Z.eqb (ch_timer_arm ch) CIO_SUCCESS)); [injection H as <- <-; exists q; apply RF|].
    exists (q ++ [JClose]).
    eapply (push C HC s k q JClose (jobs (T s1) JClose) (close_size s1) [EvCall (AClose (Some id) code reason)] (accept_close (set_selfc (set_timer s1 true)))) in H; try eassumption; try reflexivity; auto.
    + repeat constructor.
    + intros X. congruence.
    + rewrite JB. split; [discriminate|]. right. split; [reflexivity|]. exists id. reflexivity.
    + rewrite JB, CS. assert (L : N.of_nat (length b) <= SIZE_MAX) by (unfold SIZE_MAX; lia). split; [|exact L]. split; [intros _; reflexivity|]. eexists. split; [reflexivity|]. unfold total_size, chain_bytes. cbn [map concat snd]. rewrite app_nil_r. split; [exact BO|exact L].
Qed.

(** ** Bytes arrive *)
Lemma swap_calm s k q : base (T s) (tr s) k q -> normal (T s) (tr s) (selfc s) k q -> Forall idle k ->
  base (T s) (tr s) (OBsReturn :: k) q /\ normal (T s) (tr s) (selfc s) (OBsReturn :: k) q.
Proof.
  intros B N KI. split.
  - apply (base_swap _ _ (tr s) [] [OBsReturn] k q B KI); [constructor|reflexivity|reflexivity].
  - apply (normal_swap C (T s) (tr s) (tr s) (selfc s) (selfc s) [] [OBsReturn] k q N); try (repeat constructor); auto. exact (n_turn _ _ _ _ _ _ N).
Qed.
Lemma rx_still es : Forall rx_ev es -> Forall still es.
Proof. intros H. eapply Forall_impl; [|exact H]. intros e. destruct e; intros X; try exact I; destruct X. Qed.
Lemma rx_neutral os : Forall rx_op os -> Forall neutral os.
Proof. intros H. eapply Forall_impl; [|exact H]. intros e. destruct e; intros X; try exact I; destruct X. Qed.
Lemma ping_data s data ch s' os : handle_ping_frame C s data ch = Ret (s', os) -> (length data <= 125)%nat.
Proof. unfold handle_ping_frame. destruct (Nat.ltb_spec 125 (length data)); [discriminate|]. intros _. assumption. Qed.

Lemma fire_step s k q rq f ch s' os : WsRecvProofs.inv C s k -> cbe s = false -> base (T s) (tr s) k q -> normal (T s) (tr s) (selfc s) k q -> calm_top k -> choice_ok ch ->
  rd s = Some rq -> fire_ok rq f -> fire C s rq f ch = Ret (s', os) -> exists q', Inv s' (os ++ k) q'.
Proof.
  intros IV CB B N K CH RD FO H. destruct (calm_idle _ _ _ _ _ _ N K) as [KI TK].
  assert (TOK : (pongs (jobs (T s)) = 0)%nat). { pose proof (i_tok _ _ _ IV) as X. unfold tokens, pongtok in X. rewrite RD in X. cbn [has b2n] in X. lia. }
  assert (NOP : ~ In JPong q).
  { intros X. destruct (n_ready _ _ _ _ _ _ N JPong X) as (Y1 & _ & Y2). unfold pongs, pong_job in TOK. rewrite Y2 in TOK. destruct (jwbh (jobs (T s) JPong)); [|congruence]. cbn [b2n] in TOK. lia. }
  assert (NPC : peer_closed (tr s) = false).
  { destruct (peer_closed (tr s)) eqn:PC; [|reflexivity]. exfalso. unfold peer_closed in PC. apply existsb_exists in PC. destruct PC as (e & E1 & E2). destruct e; try discriminate E2. cbn in E2. apply N.eqb_eq in E2. subst kind.
    assert (OUT : snd (decode (is_server C) (inp s)) = delivered (tr s)) by (apply (i_out _ _ _ IV); unfold tokens; rewrite RD; cbn [has b2n]; lia).
    assert (X : In (OutControl 8 data) (delivered (tr s))). { clear - E1. induction (tr s) as [|e r IH]; [destruct E1|]. cbn [delivered]. apply in_or_app. destruct E1 as [-> | E1]; [right; left; reflexivity|left; apply IH, E1]. }
    rewrite <- OUT in X. apply close_closes in X. fold (decode (is_server C) (inp s)) in X. pose proof (i_rel _ _ _ IV rq (or_introl RD)) as RL. rewrite X in RL. unfold Rel in RL. clear - RL.
    destruct (rq_cb rq); repeat match goal with H : _ /\ _ |- _ => destruct H | H : exists _, _ |- _ => destruct H | H : _ \/ _ |- _ => destruct H end; discriminate. }
  destruct (fire_arrival C HC s rq f ch s' os) as (os1 & -> & AR); [destruct (i_mask _ _ _ IV) as (? & ? & _); split; assumption|exact FO|exact H|].
  destruct (swap_calm s k q B N KI) as [B2 N2]. rewrite <- app_assoc. cbn [app]. set (k2 := OBsReturn :: k) in *.
  assert (K2 : calm_top k2) by (right; exists OBsReturn, k; auto). assert (KI2 : Forall idle k2) by (constructor; [exact I|exact KI]).
  destruct AR as [es X1 X2 X3 X4 X5|s1 data X1 X2 X3 X4|s1 addr data X1 X2 X3 X4].
  - destruct X1 as (x1 & x2 & x3 & _). exists q. apply inv0_Inv; [congruence|]. apply (swap_still C s s' es [] os1 k2 q); try assumption; try constructor.
    + apply rx_still, X3.
    + congruence.
    + apply rx_neutral, X5.
    + destruct os1 as [|o [|o2 os1]]; [exact I| |cbn in X4; lia]. inversion X5 as [|? ? Y _]; subst. split; [|constructor]. destruct o; try destruct Y; cbn; auto.
    + destruct os1 as [|o [|o2 os1]]; [reflexivity| |cbn in X4; lia]. inversion X5 as [|? ? Y _]; subst. destruct o; try destruct Y; reflexivity.
  - destruct X1 as (x1 & x2 & x3 & x4 & x5). pose proof (ping_data _ _ _ _ _ X4) as LD. unfold handle_ping_frame in X4. destruct (Nat.ltb 125 (length data)); [discriminate|].
    set (c := if Nat.ltb 0 (length data) then _ else _) in *. cbn [log T] in X4.
    assert (CO : bytes_ok (chain_bytes c) /\ total_size c <= SIZE_MAX).
    { unfold c, total_size, chain_bytes. destruct (Nat.ltb 0 (length data)); cbn [map concat snd]; [rewrite app_nil_r; split; [exact X3|unfold SIZE_MAX; lia]|split; [constructor|discriminate]]. }
    exists (q ++ [JPong]). rewrite x1 in X4.
    match type of X4 with enqueue_job C ?S _ _ _ _ = _ => set (s2 := S) in * end.
    eapply (push C HC s k2 q JPong (Job (jnext (jobs (T s) JPong)) (Some c) (Some HPong) PONG_FRAME true (jcont (jobs (T s) JPong)) SHMessage) (total_size c) [EvControl PING_FRAME data] s2) in X4; try eassumption; try reflexivity; auto.
    + cbn [s2 tr log set_T]. rewrite X2. reflexivity.
    + repeat constructor.
    + split; [discriminate|]. split; reflexivity.
    + split; [|apply CO]. split; [intros _; reflexivity|]. exists c. split; [reflexivity|exact CO].
    + cbn [s2 selfc log set_T]. congruence.
    + discriminate.
    + cbn [s2 cbe log set_T]. congruence.
  - destruct X1 as (x1 & x2 & x3 & x4 & x5). unfold handle_close_frame in X4. binv X4. destruct a as [ccode rs|status len].
    { injection X4 as <- <-. exists q. apply inv0_Inv; [congruence|]. apply (swap_still C s s1 [] [] _ k2 q); try assumption; try reflexivity; try congruence; first [solve [repeat constructor] | split; [right; exact I|constructor]]. }
    cbn [log selfc] in X4. destruct (selfc s1) eqn:SF.
    { injection X4 as <- <-. exists q. apply inv0_Inv; [cbn; congruence|]. apply (swap_still C s _ [EvControl CLOSE_FRAME data] [] [OClose] k2 q); try assumption; try reflexivity; try (repeat constructor).
      - cbn. rewrite X2. reflexivity.
      - cbn. congruence. }
    assert (NI : ~ In JClose q). { intros X. apply (n_cls1 _ _ _ _ _ _ N) in X. destruct (n_cls2 _ _ _ _ _ _ N X) as [Y|Y]; congruence. }
    set (reason := if 0 <? len then _ else _) in *. set (s0 := log s1 (EvControl CLOSE_FRAME data)) in *.
    destruct (close_chain s0 status reason None SHResponseClose ch) as (b & JB & CS & BO & BL & _). { unfold reason. destruct (0 <? len); [apply bytes_ok_skipn, X3|exact I]. }
    set (s2 := prepare_close_job C s0 status reason None SHResponseClose ch) in *.
    assert (J1 : T s2 = set_job (T s) JClose (jobs (T s2) JClose)) by (unfold s2, prepare_close_job; cbn [T set_T set_job set_jobs jobs s0 log]; rewrite upd_same, x1; reflexivity).
    exists (q ++ [JClose]).
    eapply (push C HC s k2 q JClose (jobs (T s2) JClose) (close_size s2) [EvControl CLOSE_FRAME data] (accept_close s2)) in X4; try eassumption; try reflexivity; auto.
    + change (T (accept_close s2)) with (T s2). rewrite J1 at 1. reflexivity.
    + change (T (accept_close s2)) with (T s2). rewrite J1. reflexivity.
    + change (T (accept_close s2)) with (T s2). rewrite J1. reflexivity.
    + change (T (accept_close s2)) with (T s2). rewrite J1. reflexivity.
    + change (T (accept_close s2)) with (T s2). rewrite J1. reflexivity.
    + change (T (accept_close s2)) with (T s2). rewrite J1. reflexivity.
    + rewrite JB. cbn [jnext s0 log T]. rewrite x1. reflexivity.
    + unfold accept_close, s2, prepare_close_job, s0. cbn [tr log set_T app]. rewrite X2. reflexivity.
    + repeat constructor.
    + intros X. destruct (NI X).
    + rewrite JB. split; [discriminate|]. left. split; reflexivity.
    + rewrite JB, CS. assert (L : N.of_nat (length b) <= SIZE_MAX) by (unfold SIZE_MAX; lia). split; [|exact L]. split; [intros _; reflexivity|]. eexists. split; [reflexivity|]. unfold total_size, chain_bytes. cbn [map concat snd]. rewrite app_nil_r. split; [exact BO|exact L].
    + congruence.
    + unfold accept_close, s2, prepare_close_job, s0. cbn [cbe log set_T]. congruence.
Qed.

Lemma after_fire s k rq f ch s' os : rx_ok s -> cbe s = true -> done_all (T s) (tr s) k -> fire_ok rq f -> fire C s rq f ch = Ret (s', os) -> done_all (T s') (tr s') (os ++ k) /\ cbe s' = true.
Proof.
  intros RX CB D FO H. destruct (fire_arrival C HC s rq f ch s' os RX FO H) as (os1 & -> & AR). pose proof (da_k _ _ _ D) as PK.
  destruct AR as [es X1 X2 X3 X4 X5|s1 data X1 X2 X3 X4|s1 addr data X1 X2 X3 X4]; destruct X1 as (x1 & x2 & x3 & x4 & x5).
  - split; [|congruence]. rewrite x1, X2. eapply da_step; [exact D| | |].
    + eapply Forall_impl; [|exact X3]. intros e. destruct e; intros X; try exact I; destruct X.
    + rewrite !pend_app, PK. cbn. rewrite !app_nil_r. clear - X5. induction X5 as [|o os Y X IH]; [reflexivity|]. rewrite pend_cons, IH. destruct o; try destruct Y; reflexivity.
    + intros q R Q. exists q. auto.
  - unfold handle_ping_frame in X4. destruct (Nat.ltb _ _); [discriminate|]. destruct (da_q _ _ _ D) as (q & R & Q). rewrite <- x1 in R.
    match type of X4 with enqueue_job C ?S _ _ _ _ = _ => set (s2 := S) in * end.
    apply (soft_push s1 JPong (jobs (T s2) JPong) _ _ _ _ _ q) in X4; try assumption; try reflexivity.
    destruct X4 as (q' & es & R' & Q' & PS & ET & ES & EC). split; [|rewrite EC; cbn [s2 cbe log set_T]; congruence]. rewrite ET. split.
    + eauto.
    + rewrite !pend_app, PS, PK. reflexivity.
    + destruct (soft_users es (tr s2) ES) as [-> ->]. cbn [s2 tr log set_T]. rewrite X2. match goal with |- musers (accepts (?a :: ?b :: tr s)) = _ => destruct (soft_users [a; b] (tr s)) as [S1 S2]; [repeat constructor|] end.
      cbn [app] in S1, S2. rewrite S1, S2. apply (da_u _ _ _ D).
  - unfold handle_close_frame in X4. binv X4. destruct a as [ccode rs|status len].
    { injection X4 as <- <-. split; [|congruence]. rewrite x1, X2. apply (da_step (T s) (tr s) k (T s) [] _ D); [apply Forall_nil|rewrite pend_app, PK; reflexivity|]. intros q R Q. exists q. auto. }
    cbn [log selfc] in X4. destruct (selfc s1) eqn:SF.
    { injection X4 as <- <-. split; [|cbn; congruence]. cbn [T tr set_timer log]. rewrite x1, X2. apply (da_step (T s) (tr s) k (T s) [EvControl CLOSE_FRAME data] _ D); [repeat constructor|rewrite pend_app, PK; reflexivity|]. intros q R Q. exists q. auto. }
    destruct (da_q _ _ _ D) as (q & R & Q). rewrite <- x1 in R. set (reason := if 0 <? len then _ else _) in *.
    apply (soft_push s1 JClose (jobs (T (prepare_close_job C (log s1 (EvControl CLOSE_FRAME data)) status reason None SHResponseClose ch)) JClose) _ _ _ _ _ q) in X4; try assumption; try reflexivity.
    destruct X4 as (q' & es & R' & Q' & PS & ET & ES & EC). split; [|rewrite EC; cbn; congruence]. rewrite ET. split.
    + eauto.
    + rewrite !pend_app, PS, PK. reflexivity.
    + match goal with |- musers (accepts (es ++ tr ?x)) = _ => destruct (soft_users es (tr x) ES) as [-> ->] end. unfold accept_close, prepare_close_job. cbn [tr log set_T]. rewrite X2.
      match goal with |- musers (accepts (?a :: ?b :: tr s)) = _ => destruct (soft_users [a; b] (tr s)) as [S1 S2]; [repeat constructor|] end.
      cbn [app] in S1, S2. rewrite S1, S2. apply (da_u _ _ _ D).
Qed.

(** ** All executions *)
Lemma out_init g : length (jk_cmask g) = 4%nat -> bytes_ok (jk_cmask g) -> Inv (ws_init g) [] [].
Proof.
  intros L K. apply inv0_Inv; [reflexivity|]. split.
  - split; [split; [constructor|reflexivity]|reflexivity|reflexivity].
  - left. split; cbn; try exact I; try discriminate; try apply Forall_nil; try reflexivity.
    + intros n [].
    + intros n [].
    + intros n M _. destruct n; try discriminate M; reflexivity.
    + intros q1 q2 X. destruct q1; discriminate.
    + intros [].
    + split; assumption.
    + exists (jk_cmask g), [], []. split; [reflexivity|]. split; [reflexivity|]. split; [apply car_nil; split; assumption|]. split; constructor.
Qed.
Lemma failed_over P s k : reach C P (s, k) -> cbe s = true -> over (tr s) = true.
Proof.
  intros H B. destruct (failed_reported C P s k H B) as (e & r & X). unfold over. apply existsb_exists. exists (EvError e r). split; [exact X|reflexivity].
Qed.

Theorem reach_out s k : reach C proper (s, k) -> exists q, Inv s k q.
Proof.
  intros H. remember (s, k) as c eqn:Ec. revert s k Ec. induction H as [g L1 L2 L3 L4|c x c' Hr IH En Cd St]; intros s k Ec.
  - injection Ec as <- <-. exists []. apply out_init; assumption.
  - subst c'. destruct c as [s0 k0]. destruct (IH _ _ eq_refl) as (q & B & V).
    assert (IV : WsRecvProofs.inv C s0 k0) by (eapply reach_inv; [exact HC|]; eapply reach_mono; [|exact Hr]; intros; apply proper_reads; assumption).
    pose proof (proj2 (proj1 (history C _ _ _ Hr))) as NP.
    destruct (cbe s0) eqn:CB.
    + (* after the error *)
      pose proof (failed_over _ _ _ Hr CB) as OV.
      destruct x as [ch|a ch|f ch|err|err]; cbn [enabled] in En.
      * destruct En as [KN CH]. destruct k0 as [|o k1]; [congruence|]. cbn [step] in St. unfold lift in St. binv St. destruct a as [s1 os]. injection St as -> <-. cbn [fst snd] in *.
        assert (GO : forall q', base (T s) (tr s) (os ++ k1) q' -> cbe s = true -> aborting (os ++ k1) \/ after (os ++ k1) q' -> exists q, Inv s (os ++ k1) q).
        { intros q' G1 G2 G3. exists q'. split; [exact G1|]. rewrite G2. exact G3. }
        destruct V as [V|V].
        -- destruct (abort_op_step s0 _ q ch s os CB B V o k1 eq_refl E) as (q' & G1 & G2 & G3). exact (GO q' G1 G2 G3).
        -- pose proof (after_in _ _ _ _ B V) as D. destruct (after_op s0 o k1 ch s os CB D E) as [D' CB']. apply after_out in D'. destruct D' as (q' & G1 & G2). apply (GO q'); auto.
      * destruct Cd as [Cd _]. cbn [fst] in Cd. congruence.
      * destruct En as (KT & _ & _ & CH & rq & RD & FO). cbn [step] in St. rewrite RD in St. unfold lift in St. binv St. destruct a as [s1 os]. injection St as -> <-. cbn [fst snd] in *.
        destruct V as [V|V].
        { exfalso. destruct V as (top & c & r & k' & -> & TP). destruct TP as [-> | (o & -> & AO)]; destruct KT as [KT | [k'' KT]]; try discriminate KT. cbn [app] in KT. injection KT as -> _. exact AO. }
        pose proof (after_in _ _ _ _ B V) as D. destruct (after_fire s0 k0 rq f ch s os) as [D' CB']; try assumption; [destruct (i_mask _ _ _ IV) as (? & ? & _); split; assumption|].
        apply after_out in D'. destruct D' as (q' & G1 & G2). exists q'. split; [exact G1|]. rewrite CB'. right. exact G2.
      * destruct En as (-> & _ & IF). cbn [step] in St. unfold lift in St. cbn [obind fst snd app] in St. injection St as <- <-.
        destruct V as [V|V]; [destruct V as (top & c & r & k' & V & _); destruct top; discriminate V|].
        exists q. split; [|cbn [cbe set_T]; rewrite CB; right; exact V]. destruct B as [b1 b2 b3]. split; [|reflexivity|exact b3]. apply (rep_ext (T s0)); try reflexivity. exact b1.
      * destruct En as (-> & _ & _). cbn [step] in St. unfold lift in St. cbn [obind fst snd app] in St. injection St as <- <-.
        destruct V as [V|V]; [destruct V as (top & c & r & k' & V & _); destruct top; discriminate V|].
        exists q. split; [destruct B as [b1 b2 b3]; split; [exact b1|reflexivity|exact b3]|]. cbn [cbe set_timer]. rewrite CB. right. exact V.
    + (* no error yet *)
      destruct x as [ch|a ch|f ch|err|err]; cbn [enabled] in En.
      * destruct En as [KN CH]. destruct k0 as [|o k1]; [congruence|]. cbn [step] in St. unfold lift in St. binv St. destruct a as [s1 os]. injection St as -> <-. cbn [fst snd] in *.
        destruct V as [V|V].
        -- destruct (normal_op s0 o k1 q ch s os NP CH B V E) as (q' & G1 & G2). exists q'. apply inv0_Inv; [congruence|exact G1].
        -- exists q. eapply erring_op; eassumption.
      * destruct En as (UC & HK & CH & AO). cbn [step] in St. unfold lift in St. binv St. destruct a0 as [s1 os]. injection St as -> <-. cbn [fst snd] in *.
        assert (KT : calm_top k0) by (destruct UC as [-> | [k' ->]]; [left; reflexivity|right; exists OUser, k'; auto]).
        destruct V as [V|V]; [eapply call_step; eassumption|]. exfalso. destruct V as [(o & k' & -> & EO) _]. destruct UC as [UC | [k'' UC]]; [discriminate|]. injection UC as -> _. exact EO.
      * destruct En as (KT & _ & _ & CH & rq & RD & FO). cbn [step] in St. rewrite RD in St. unfold lift in St. binv St. destruct a as [s1 os]. injection St as -> <-. cbn [fst snd] in *.
        destruct V as [V|V].
        { eapply fire_step; try eassumption. destruct KT as [-> | [k' ->]]; [left; reflexivity|right; exists OFire, k'; auto]. }
        exfalso. destruct V as [(o & k' & -> & EO) _]. destruct KT as [KT | [k'' KT]]; [discriminate|]. injection KT as -> _. exact EO.
      * destruct En as (-> & _ & IF). cbn [step] in St. unfold lift in St. cbn [obind fst snd app] in St. injection St as <- <-.
        destruct V as [V|V]; [|destruct V as [(o & k' & V & _) _]; discriminate V].
        exists q. apply inv0_Inv; [exact CB|]. pose proof (tok_in C _ _ _ _ _ V I) as TK. cbn in TK.
        destruct q as [|n q]; [cbn [one] in TK; lia|]. cbn [one] in TK.
        pose proof (n_sh _ _ _ _ _ _ V) as [SH _]. specialize (SH IF).
        split; [destruct B as [b1 b2 b3]; split; [apply (rep_ext (T s0)); try reflexivity; exact b1|reflexivity|exact b3]|].
        left. cbn [T set_T tr selfc]. destruct V as [n1 n2 n3 n4 n5 n6 n7 n8 n9 n10 n11 n12 n13 n14]. split; try assumption.
        -- cbn. lia.
        -- cbn [inflight set_bs bswh jobs]. split; [intros X; exact SH|exact SH].
        -- intros m [Hm|[]]. discriminate.
        -- replace (hs (set_bs (T s0) (pred (inflight (T s0))) (bswh (T s0))) [OStream (bswh (T s0)) err]) with (hs (T s0) []); [exact n14|]. unfold hs. cbn. lia.
      * destruct En as (-> & _ & _). cbn [step] in St. unfold lift in St. cbn [obind fst snd app] in St. injection St as <- <-.
        destruct V as [V|V]; [|destruct V as [(o & k' & V & _) _]; discriminate V].
        exists q. apply inv0_Inv; [exact CB|]. apply (swap_still C s0 (set_timer s0 false) [] [] [OClose] [] q); try assumption; try reflexivity; auto; repeat constructor.
Qed.
End S.
