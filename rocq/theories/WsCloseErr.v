(** C26 when the connection fails: the application does not close the connection itself. *)
From Verif Require Import Base Utf8Model MaskModel MaskSpec EndianModel EndianSpec EndianProofs
  WsModel WsFrame WsSendProofs WsRecvSpec WsFrameSpec WsSend WsHistory WsTrace WsRecvProofs WsRecvReach WsClean WsRecvProps WsRecvProps2 WsQueue WsOutSpec WsArrive WsWire WsOut WsOutStep WsOutReach WsClose WsAnswer.
Open Scope N_scope.
Set Warnings "-unused-intro-pattern".

(** The application follows the rules and leaves the closing to the peer and to the library. *)
Definition remote (c : conf) (x : act) : Prop := proper c x /\ no_close_call x.

(** The history (newest first): the hook comes once, after all handlers of writes were called; nothing is delivered after it. *)
Definition once_ev (e : ev) (r : list ev) : Prop :=
  match e with
  | EvHook => hooks r = 0%nat /\ dones r = musers (accepts r)
  | _ => if delivery e then hooks r = 0%nat else True
  end.
Fixpoint once (l : list ev) : Prop := match l with [] => True | e :: r => once_ev e r /\ once r end.

Definition hooky (e : ev) : bool := match e with EvHook => true | _ => delivery e end.
Lemma tidy_once l : tidy l -> local_close l = false -> once l.
Proof.
  induction l as [|e l IH]; [intros; exact I|]. intros [H1 H2] L. cbn [local_close existsb] in L. apply orb_false_iff in L. destruct L as [_ L]. fold (local_close l) in L.
  split; [|apply IH; assumption]. destruct e; cbn in H1 |- *; try exact I; try exact H1. destruct H1 as [A B]. auto.
Qed.
Lemma once_more es l : Forall (fun e => is_hook e = false) es -> hooks l = 0%nat -> once l -> once (es ++ l).
Proof.
  intros H Z O. induction H as [|e es He Hes IH]; [exact O|]. cbn [app once]. split; [|exact IH].
  assert (X : hooks (es ++ l) = 0%nat). { rewrite hooks_app, Z. clear - Hes. unfold hooks. induction Hes as [|e es He Hes IH]; [reflexivity|]. cbn. rewrite He. exact IH. }
  destruct e; cbn; try exact I; try exact X; try discriminate He.
Qed.
Lemma once_quiet es l : Forall (fun e => hooky e = false) es -> once l -> once (es ++ l).
Proof.
  intros H O. induction H as [|e es He Hes IH]; [exact O|]. cbn [app once]. split; [|exact IH]. destruct e; cbn in *; try exact I; try discriminate He.
Qed.
Lemma nohook_hooks es : Forall (fun e => is_hook e = false) es -> hooks es = 0%nat.
Proof. intros H. unfold hooks. induction H as [|e es He Hes IH]; [reflexivity|]. cbn. rewrite He. exact IH. Qed.

Section S.
Variable C : cfg.
Hypothesis HC : cfg_ok C.

(** ** No local close: the timer is never armed *)
Definition same_self (s s' : ws) : Prop := timer s' = timer s /\ selfc s' = selfc s /\ local_close (tr s') = local_close (tr s).
Lemma enq_self a n len ch k0 b o' : enqueue_job C a n len ch k0 = Ret (b, o') -> same_self a b.
Proof.
  intros H. apply enqueue_frame in H. destruct H as ((c1 & c2 & c3 & c4 & c5 & _) & TR & _). split; [auto|]. split; [auto|]. destruct TR as [-> | (c & ->)]; reflexivity.
Qed.
Lemma self_trans a b c : same_self a b -> same_self b c -> same_self a c.
Proof. unfold same_self. intuition congruence. Qed.
Lemma op_self s o ch s' os : run_op C s o ch = Ret (s', os) -> same_self s s'.
Proof.
  assert (EQ : forall a n len k0 b o', enqueue_job C a n len ch k0 = Ret (b, o') -> same_self s a -> same_self s b).
  { intros a n len k0 b o' H X. eapply self_trans; [exact X|]. eapply enq_self, H. }
  intros H. destruct o; cbn [run_op] in H; try (injection H as <- <-; split; [|split]; reflexivity).
  - destruct (cbe s); injection H as <- <-; split; [|split| |split]; reflexivity.
  - destruct (dequeue_job (T s)) as [[n|] t]; injection H as <- <-; split; [|split| |split]; reflexivity.
  - eapply EQ; [exact H|]. split; [|split]; reflexivity.
  - destruct (hasrh s); injection H as <- <-; split; [|split| |split]; reflexivity.
  - binv H. destruct a as [[t n] c]. destruct sh; [destruct (jhandler _); [|discriminate]|..]; injection H as <- <-; (split; [|split]); reflexivity.
  - unfold call_handler in H. destruct h as [[id|]|]; injection H as <- <-; (split; [|split]); reflexivity.
  - unfold call_handler in H. destruct (jhandler (jobs (T s) JClose)) as [[id|]|]; injection H as <- <-; (split; [|split]); reflexivity.
  - destruct j as [n|]; [|injection H as <- <-; (split; [|split]); reflexivity]. destruct (jwbh (jobs (T s) n)); [|discriminate]. binv H. destruct a as [s1 r]. cbn [fst snd] in H.
    apply send_frame_frame in E. destruct E as ((c1 & c2 & c3 & c4 & c5 & _) & (x1 & x2 & E2 & _) & _). assert (s1 = s') as -> by (destruct r; injection H; auto). split; [auto|]. split; [auto|]. rewrite E2. reflexivity.
  - destruct (negb _); [injection H as <- <-; (split; [|split]); reflexivity|]. apply ret_inj in H. unfold bs_read in H. destruct (_ && _)%bool; injection H as <- <-; (split; [|split]); reflexivity.
Qed.
Lemma call_self s a ch s' os : call C s a ch = Ret (s', os) -> match a with AClose _ _ _ => False | _ => True end -> same_self s s'.
Proof.
  assert (EQ : forall a n len k0 b o', enqueue_job C a n len ch k0 = Ret (b, o') -> same_self s a -> same_self s b).
  { intros a' n len k0 b o' H X. eapply self_trans; [exact X|]. eapply enq_self, H. }
  intros H NC. unfold call, refuse in H. destruct a as [|id flen p lf bin|id p|id p|id p|id code reason]; [..|destruct NC].
  - destruct (_ =? 0); apply ret_inj in H; unfold bs_read in H; destruct (_ && _)%bool; injection H as <- <-; (split; [|split]); reflexivity.
  - destruct id as [id|]; [|injection H as <- <-; (split; [|split]); reflexivity]. destruct (jwbh _); [injection H as <- <-; (split; [|split]); reflexivity|].
    destruct (if fragw _ then _ else _) as [kind fw]. eapply EQ; [exact H|]. (split; [|split]); reflexivity.
  - eapply EQ; [exact H|]. (split; [|split]); reflexivity.
  - unfold write_ping_or_pong, refuse in H. destruct id as [id|]; [|injection H as <- <-; (split; [|split]); reflexivity]. destruct (negb _); [injection H as <- <-; (split; [|split]); reflexivity|].
    destruct (jwbh _); [injection H as <- <-; (split; [|split]); reflexivity|]. destruct p; [|discriminate]. eapply EQ; [exact H|]. (split; [|split]); reflexivity.
  - unfold write_ping_or_pong, refuse in H. destruct id as [id|]; [|injection H as <- <-; (split; [|split]); reflexivity]. destruct (negb _); [injection H as <- <-; (split; [|split]); reflexivity|].
    destruct (jwbh _); [injection H as <- <-; (split; [|split]); reflexivity|]. destruct p; [|discriminate]. eapply EQ; [exact H|]. (split; [|split]); reflexivity.
Qed.
Lemma remote_proper s k : reach C remote (s, k) -> reach C proper (s, k).
Proof. apply reach_mono. intros c x [H _]. exact H. Qed.
Lemma proper_inv s k : reach C proper (s, k) -> WsRecvProofs.inv C s k.
Proof. intros H. eapply reach_inv; [exact HC|]. eapply reach_mono; [|exact H]. intros; apply proper_reads; assumption. Qed.
Lemma fire_self s k rq f ch s' os : WsRecvProofs.inv C s k -> timer s = false -> selfc s = false -> fire_ok rq f -> fire C s rq f ch = Ret (s', os) -> same_self s s'.
Proof.
  intros IV TI SC FO H. destruct (fire_arrival C HC s rq f ch s' os) as (os1 & -> & AR); [destruct (i_mask _ _ _ IV) as (? & ? & _); split; assumption|exact FO|exact H|].
  assert (EQ : forall a n len k0 b o', enqueue_job C a n len ch k0 = Ret (b, o') -> same_self s a -> same_self s b).
  { intros a n len k0 b o' H' X. eapply self_trans; [exact X|]. eapply enq_self, H'. }
  destruct AR as [es X1 X2 X3 X4 X5|s1 data X1 X2 X3 X4|s1 addr data X1 X2 X3 X4]; destruct X1 as (x1 & x2 & x3 & x4 & x5).
  - split; [auto|]. split; [auto|]. rewrite X2. unfold local_close. rewrite existsb_app. replace (existsb local_ev es) with false; [reflexivity|].
    clear - X3. induction X3 as [|e es He Hes IH]; [reflexivity|]. cbn. rewrite <- IH. destruct e; try destruct He; reflexivity.
  - unfold handle_ping_frame in X4. destruct (Nat.ltb 125 (length data)); [discriminate|]. eapply EQ; [exact X4|]. split; [exact x4|]. split; [exact x3|]. cbn [tr log set_T]. rewrite X2. reflexivity.
  - unfold handle_close_frame in X4. binv X4. destruct a as [ccode rs|status len]; [injection X4 as <- <-; split; [auto|]; split; [auto|]; rewrite X2; reflexivity|].
    cbn [log selfc] in X4. rewrite x3, SC in X4. eapply EQ; [exact X4|]. unfold accept_close, prepare_close_job. split; [exact x4|]. split; [exact x3|]. cbn [tr log set_T]. rewrite X2. reflexivity.
Qed.
Lemma remote_self s k : reach C remote (s, k) -> timer s = false /\ selfc s = false /\ local_close (tr s) = false.
Proof.
  intros H. remember (s, k) as c eqn:Ec. revert s k Ec. induction H as [g L1 L2 L3 L4|c x c' Hr IH En Cd St]; intros s k Ec.
  - injection Ec as <- <-. repeat split.
  - subst c'. destruct c as [s0 k0]. destruct (IH _ _ eq_refl) as (T0 & S0 & L0). destruct Cd as [Cd NC].
    assert (G : same_self s0 s -> timer s = false /\ selfc s = false /\ local_close (tr s) = false) by (intros (A & B & D); rewrite A, B, D; auto).
    destruct x as [ch|a ch|f ch|err|err]; cbn [enabled] in En; cbn [step] in St.
    + destruct En as [KN CH]. destruct k0 as [|o k1]; [congruence|]. unfold lift in St. binv St. destruct a as [s1 os]. injection St as -> <-. apply G. eapply op_self, E.
    + unfold lift in St. binv St. destruct a0 as [s1 os]. injection St as -> <-. apply G. eapply call_self; [exact E|]. destruct a; try exact I. exact NC.
    + destruct En as (_ & _ & _ & _ & rq & RD & FO). rewrite RD in St. unfold lift in St. binv St. destruct a as [s1 os]. injection St as -> <-. apply G. eapply fire_self; try eassumption. apply proper_inv, remote_proper, Hr.
    + unfold lift in St. cbn [obind fst snd app] in St. injection St as <- <-. apply G. repeat split.
    + destruct En as (_ & X & _). congruence.
Qed.

(** ** After the error was reported *)
Definition plain_h (s : ws) (q : list jname) : Prop := forall n, In n q -> jhandler (jobs (T s) n) = None \/ jhandler (jobs (T s) n) = Some HPong.
(** What is left below the error: nothing that closes, and nothing that sends. *)
Definition nexts (s : ws) (q : list jname) (k : list op) : Prop :=
  forall n, In (OMsgNext (Some n)) k -> n <> JClose /\ (n = JPong -> rd s = None) /\ (In n q \/ jwbh (jobs (T s) n) = None).
Definition low (s : ws) (q : list jname) (k : list op) : Prop := Forall idle k /\ nclose k = 0%nat /\ nexts s q k.
Lemma low_ext s s' q q' k : low s q k -> rd s' = rd s -> (forall n, In n q \/ jwbh (jobs (T s) n) = None -> n <> JClose -> In n q' \/ jwbh (jobs (T s') n) = None) -> low s' q' k.
Proof. intros (L1 & L2 & L3) E J. split; [exact L1|]. split; [exact L2|]. intros n X. destruct (L3 n X) as (A & B & D). rewrite E. auto. Qed.
Lemma low_T s s' q k : low s q k -> rd s' = rd s -> T s' = T s -> low s' q k.
Proof. intros L E1 E2. apply (low_ext s s' q q k L E1). intros n X _. rewrite E2. exact X. Qed.
Lemma low_cons s q o k : low s q (o :: k) -> low s q k.
Proof.
  intros (L1 & L2 & L3). inversion L1; subst. split; [assumption|]. split; [rewrite nc_cons in L2; lia|]. intros n X. apply L3. right. exact X.
Qed.
Definition harm (o : op) : Prop :=
  match o with
  | OAbort | OUser | OHandleError _ _ _ | OCloseHandler _ _ => True
  | OHandler _ h e _ => h = None \/ (h = Some HPong /\ e <> CIO_SUCCESS)
  | OPongWritten e => e <> CIO_SUCCESS
  | _ => False
  end.
Inductive late (s : ws) (k : list op) (q : list jname) : Prop :=
| lt_abort top c r k' : k = top ++ OAbort :: OErrClose c r :: k' -> (top = [] \/ exists o, top = [o] /\ abort_op o) -> low s q k' -> hooks (tr s) = 0%nat -> late s k q
| lt_close c r k' : k = OErrClose c r :: k' -> q = [] -> low s [] k' -> hooks (tr s) = 0%nat -> late s k q
| lt_wait r pre k' : k = pre ++ k' -> (pre = [] \/ exists e c0 r0, pre = [OHandleError e c0 r0]) -> q = JClose :: r -> bswh (T s) = SHCloseImmediate -> (0 < inflight (T s))%nat ->
    jhandler (jobs (T s) JClose) = None -> plain_h s q -> low s [] k' -> hooks (tr s) = 0%nat -> late s k q
| lt_done r e k' : k = OStream SHCloseImmediate e :: k' -> q = JClose :: r -> jhandler (jobs (T s) JClose) = None -> plain_h s q -> low s [] k' -> hooks (tr s) = 0%nat -> late s k q
| lt_end pre x k' : k = pre ++ x :: k' -> Forall harm pre -> is_closing x = true -> jhandler (jobs (T s) JClose) = None -> plain_h s q -> low s [] k' -> hooks (tr s) = 0%nat -> late s k q
| lt_hooked : hooked s = true -> jhandler (jobs (T s) JClose) = None -> low s [] k -> hooks (tr s) = 1%nat -> late s k q.

Lemma low_user s q k : low s q k -> low s q (OUser :: k).
Proof. intros (L1 & L2 & L3). split; [constructor; [exact I|exact L1]|]. split; [rewrite nc_cons; exact L2|]. intros n [X|X]; [discriminate|apply L3, X]. Qed.

Lemma low_op s o k ch s' os : low s [] (o :: k) -> jhandler (jobs (T s) JClose) = None -> run_op C s o ch = Ret (s', os) ->
  low s' [] (os ++ k) /\ T s' = T s /\ hooked s' = hooked s /\ rd s' = rd s /\ (exists es, tr s' = es ++ tr s /\ Forall (fun e => hooky e = false) es).
Proof.
  intros L JH H. pose proof (low_cons _ _ _ _ L) as LK. destruct L as (L1 & L2 & L3). inversion L1 as [|? ? IO _]; subst.
  assert (Z : forall e, s' = (match e with Some x => log s x | None => s end) \/ (exists n, s' = set_cbrun s n) -> (match e with Some x => hooky x = false | None => True end) -> os = [] ->
     low s' [] (os ++ k) /\ T s' = T s /\ hooked s' = hooked s /\ rd s' = rd s /\ (exists es, tr s' = es ++ tr s /\ Forall (fun e => hooky e = false) es)).
  { intros e [-> | [n ->]] F ->; cbn [app]; [destruct e as [x|]|]; (split; [apply (low_T s); [exact LK|reflexivity|reflexivity]|]); (split; [reflexivity|]); (split; [reflexivity|]); (split; [reflexivity|]).
    - exists [x]. split; [reflexivity|repeat constructor; exact F].
    - exists []. split; [reflexivity|constructor].
    - exists []. split; [reflexivity|constructor]. }
  destruct o; try (destruct IO; fail); cbn [run_op] in H.
  - injection H as <- <-. apply (Z None); auto.
  - injection H as <- <-. apply (Z None); auto.
  - rewrite nc_cons in L2. discriminate.
  - rewrite nc_cons in L2. discriminate.
  - rewrite JH in H. injection H as <- <-. apply (Z None); auto.
  - destruct j as [n|]; [|injection H as <- <-; apply (Z None); auto]. destruct (L3 n (or_introl eq_refl)) as (_ & _ & [[]|W]). rewrite W in H. discriminate.
  - injection H as <- <-. apply (Z None); eauto.
  - injection H as <- <-. apply (Z (Some (EvRet err))); auto.
Qed.

Lemma late_op s o k q ch s' os : cbe s = true -> rep (T s) q -> late s (o :: k) q -> once (tr s) -> (o = OHook -> dones (tr s) = musers (accepts (tr s))) ->
  run_op C s o ch = Ret (s', os) -> (exists q', rep (T s') q' /\ late s' (os ++ k) q') /\ once (tr s').
Proof.
  intros CB RP L ON HD H. destruct L as [top c r k' E TP L HZ|c r k' E Q L HZ|r pre k' E PR Q BW IF JH PH L HZ|r e k' E Q JH PH L HZ|pre x k' E FH CX JH PH L HZ|HK JH L HZ].
  - (* aborting *)
    destruct TP as [-> | (o' & -> & AO)]; cbn [app] in E; injection E as -> ->.
    + cbn [run_op] in H. destruct q as [|n q].
      * rewrite rep_pop_nil in H by exact RP. injection H as <- <-. split; [|exact ON]. exists []. split; [exact RP|]. eapply lt_close; [reflexivity|reflexivity| |exact HZ]. apply (low_T s); [exact L|reflexivity|reflexivity].
      * destruct (rep_pop _ _ _ RP) as [D _]. rewrite D in H. cbn [jobs set_first] in H. injection H as <- <-. split; [|exact ON]. exists q. split.
        { change (rep (popped (T s) n q) q). apply popped_rep, RP. }
        eapply (lt_abort _ _ _ [_]); [reflexivity|right; eexists; split; [reflexivity|discriminate]| |exact HZ].
        apply (low_ext s _ (n :: q) q k' L); [reflexivity|]. intros m X MC. change (T (set_T s (set_job (set_first (T s) (hd_error q)) n (set_wbh (jobs (T s) n) None)))) with (popped (T s) n q).
        destruct (jname_dec m n) as [-> | NE]; [right; unfold popped; cbn [jobs set_job set_jobs set_first]; rewrite upd_same; reflexivity|].
        rewrite popped_other by exact NE. destruct X as [[X|X]|X]; [congruence|left; exact X|right; exact X].
    + assert (G : forall top' es, s' = s \/ (exists e, s' = log s e /\ is_hook e = false /\ es = [e]) -> (top' = [] \/ exists o, top' = [o] /\ abort_op o) -> os = top' -> (exists q', rep (T s') q' /\ late s' (os ++ OAbort :: OErrClose c r :: k') q') /\ once (tr s')).
      { intros top' es ES TP ->. destruct ES as [-> | (e & -> & HE & ->)].
        - split; [|exact ON]. exists q. split; [exact RP|]. eapply (lt_abort _ _ _ top'); [reflexivity|exact TP|exact L|exact HZ].
        - split; [|apply (once_more [e]); [repeat constructor; exact HE|exact HZ|exact ON]]. exists q. split; [exact RP|]. eapply (lt_abort _ _ _ top'); [reflexivity|exact TP|apply (low_T s); [exact L|reflexivity|reflexivity]|].
          cbn [tr log]. change (hooks (e :: tr s)) with (hooks ([e] ++ tr s)). rewrite hooks_app, HZ. unfold hooks. cbn [filter]. rewrite HE. reflexivity. }
      destruct o'; try (destruct AO; fail); cbn [run_op] in H.
      * injection H as <- <-. apply (G [] []); auto.
      * rewrite CB in H. injection H as <- <-. apply (G [] []); auto.
      * cbn [abort_op] in AO. unfold call_handler in H. destruct h as [[id|]|]; injection H as <- <-.
        -- apply (G [OUser] [EvWriteDone n id err c0]); auto; [right; eexists; auto|right; exists OUser; split; [reflexivity|exact I]].
        -- apply (G [OPongWritten err] []); auto. right. eexists. split; [reflexivity|exact AO].
        -- apply (G [] []); auto.
      * cbn [abort_op] in AO. destruct (Z.eqb_spec err CIO_SUCCESS) as [X|X]; [congruence|]. cbn [negb] in H. injection H as <- <-. match goal with |- (exists q0, _ /\ late _ (?p ++ _) _) /\ _ => apply (G p []); auto end.
        right. eexists. split; [reflexivity|exact I].
  - (* the close frame of the error is sent *)
    injection E as -> ->. subst q. cbn [run_op] in H. unfold enqueue_job in H.
    assert (F : first (T s) = None) by apply RP.
    set (s1 := accept_close (prepare_close_job C s c (Some r) None SHCloseImmediate ch)) in *.
    change (first (T s1)) with (first (T s)) in H. rewrite F in H. cbn [T set_T] in H. binv H. destruct a as [s2 rr]. cbn [fst snd] in H.
    apply send_frame_frame in E. destruct E as ((c1 & c2 & c3 & c4 & c5 & c6 & c7 & _) & (x1 & x2 & E2 & _) & E3 & E4 & E5 & E6 & E7 & _ & E9 & E10).
    cbn [T set_T first last set_last set_first jobs tr] in *.
    assert (J1 : forall m, m <> JClose -> jobs (T s2) m = jobs (T s) m).
    { intros m Hm. rewrite E4 by exact Hm. unfold s1, accept_close, prepare_close_job. cbn [T log set_T set_job set_jobs jobs]. apply upd_other. exact Hm. }
    assert (JC : jsh (jobs (T s1) JClose) = SHCloseImmediate /\ jhandler (jobs (T s1) JClose) = None) by (unfold s1, accept_close, prepare_close_job; cbn [T log set_T set_job set_jobs jobs]; rewrite upd_same; split; reflexivity).
    destruct JC as [JS JH]. assert (JH2 : jhandler (jobs (T s2) JClose) = None) by (destruct (E5 JClose) as (-> & _); exact JH).
    assert (PH : plain_h s2 [JClose]) by (intros n [<-|[]]; left; exact JH2).
    assert (LO : low s2 [] k'). { apply (low_ext s s2 [] [] k' L); [exact c7|]. intros n X NJ. rewrite J1 by exact NJ. exact X. }
    assert (RP2 : rep (T s2) [JClose]) by (split; [repeat constructor; intros []|]; split; [exact E6|]; split; [exact I|exact E7]).
    assert (TR : tr s2 = EvSend JClose x1 :: EvAccept JClose (jobs (T (prepare_close_job C s c (Some r) None SHCloseImmediate ch)) JClose) (close_size (prepare_close_job C s c (Some r) None SHCloseImmediate ch)) :: tr s) by (rewrite E2; reflexivity).
    assert (HZ2 : hooks (tr s2) = 0%nat) by (rewrite TR; exact HZ).
    assert (ON2 : once (tr s2)) by (rewrite TR; cbn; auto).
    destruct (ch_write ch); destruct E10 as [-> E10]; injection H as <- <-; (split; [|exact ON2]); exists [JClose]; (split; [exact RP2|]); cbn [app].
    + eapply (lt_wait _ _ _ [] []); try reflexivity; try assumption; [left; reflexivity|rewrite E10; apply Nat.lt_0_succ].
    + eapply lt_done; try reflexivity; assumption.
    + eapply (lt_end _ _ _ [_] OClose); try reflexivity; try assumption. repeat constructor.
  - (* waiting for the close frame to be written *)
    destruct PR as [-> | (e & c0 & r0 & ->)]; cbn [app] in E.
    + subst k'. destruct (low_op _ _ _ _ _ _ L JH H) as (L' & ET & EH & ER & es & TR & FE). split; [|rewrite TR; apply once_quiet; assumption]. exists q. rewrite ET. split; [exact RP|].
      eapply (lt_wait _ _ _ _ []); try reflexivity; try eassumption; try (rewrite ET; assumption); [left; reflexivity|intros n; rewrite ET; apply PH|]. rewrite TR, hooks_app, HZ. rewrite nohook_hooks; [reflexivity|]. eapply Forall_impl; [|exact FE]. intros x; destruct x; auto.
    + injection E as -> ->. cbn [run_op] in H. rewrite CB in H. injection H as <- <-. split; [|exact ON]. exists q. split; [exact RP|]. eapply (lt_wait _ _ _ _ []); try reflexivity; try eassumption. left. reflexivity.
  - (* it was written *)
    injection E as -> ->. subst q. cbn [run_op] in H. binv H. destruct a as [[t n] c]. unfold write_jobs_popfront in E. destruct (rep_pop _ _ _ RP) as [D _]. rewrite D in E. cbn [jobs set_first] in E.
    destruct (jwbh (jobs (T s) JClose)) as [c1|] eqn:W; [|discriminate]. injection E as <- <- <-. injection H as <- <-. split; [|exact ON]. exists r. split; [change (rep (popped (T s) JClose r) r); apply popped_rep, RP|].
    cbn [app close_handler]. eapply (lt_end _ _ _ [OAbort; OCloseHandler e (tl c1)] OClose); try reflexivity; [repeat constructor|exact JH|..].
    + intros n X. change (T (set_T s (set_job (set_first (T s) (hd_error r)) JClose (set_wbh (jobs (T s) JClose) None)))) with (popped (T s) JClose r). rewrite popped_handler. apply PH. right. exact X.
    + apply (low_ext s _ [] [] k' L); [reflexivity|]. intros m X NJ. change (T (set_T s (set_job (set_first (T s) (hd_error r)) JClose (set_wbh (jobs (T s) JClose) None)))) with (popped (T s) JClose r). rewrite popped_other by exact NJ. exact X.
    + exact HZ.
  - (* closing *)
    destruct pre as [|o' pre]; cbn [app] in E; injection E as -> ->.
    + destruct x; try discriminate CX; cbn [run_op] in H.
      * destruct (hasrh s); injection H as <- <-.
        -- split; [|cbn; auto]. exists q. split; [exact RP|]. eapply (lt_end _ _ _ [OUser] OHook); try reflexivity; try assumption; repeat constructor.
        -- split; [|exact ON]. exists q. split; [exact RP|]. eapply (lt_end _ _ _ [] OHook); try reflexivity; try assumption.
      * injection H as <- <-. split; [|cbn; auto]. exists q. split; [exact RP|]. apply lt_hooked; try reflexivity; try assumption.
        -- apply low_user. apply (low_T s); [exact L|reflexivity|reflexivity].
        -- cbn [tr log set_hooked]. change (hooks (EvHook :: tr s)) with (S (hooks (tr s))). rewrite HZ. reflexivity.
    + inversion FH as [|? ? HO FH']; subst.
      assert (G : forall p, Forall harm p -> s' = s -> os = p -> (exists q', rep (T s') q' /\ late s' (os ++ pre ++ x :: k') q') /\ once (tr s')).
      { intros p FP -> ->. split; [|exact ON]. exists q. split; [exact RP|]. eapply (lt_end _ _ _ (p ++ pre) x); try eassumption; [rewrite app_assoc; reflexivity|apply Forall_app; auto]. }
      destruct o'; try (destruct HO; fail); cbn [run_op] in H.
      * injection H as <- <-. apply (G []); auto.
      * rewrite CB in H. injection H as <- <-. apply (G []); auto.
      * destruct q as [|n q].
        -- rewrite rep_pop_nil in H by exact RP. injection H as <- <-. apply (G []); auto. destruct s; reflexivity.
        -- destruct (rep_pop _ _ _ RP) as [D _]. rewrite D in H. cbn [jobs set_first] in H. injection H as <- <-. split; [|exact ON]. exists q. split; [change (rep (popped (T s) n q) q); apply popped_rep, RP|].
           eapply (lt_end _ _ _ (_ :: OAbort :: pre) x); try reflexivity; try assumption.
           ++ constructor; [|constructor; [exact I|exact FH']]. cbn. destruct (PH n (or_introl eq_refl)) as [X|X]; [left; exact X|right; split; [exact X|discriminate]].
           ++ change (jhandler (jobs (popped (T s) n q) JClose) = None). rewrite popped_handler. exact JH.
           ++ intros m X. change (jhandler (jobs (popped (T s) n q) m) = None \/ jhandler (jobs (popped (T s) n q) m) = Some HPong). rewrite popped_handler. apply PH. right. exact X.
           ++ apply (low_ext s _ [] [] k' L); [reflexivity|]. intros m X NJ. change (In m [] \/ jwbh (jobs (popped (T s) n q) m) = None). destruct (jname_dec m n) as [-> | NE]; [right; unfold popped; cbn [jobs set_job set_jobs set_first]; rewrite upd_same; reflexivity|].
              rewrite popped_other by exact NE. exact X.
      * unfold call_handler in H. destruct HO as [-> | [-> NE]]; injection H as <- <-; [apply (G []); auto|apply (G [OPongWritten err]); auto].
      * rewrite JH in H. injection H as <- <-. apply (G []); auto.
      * cbn [harm] in HO. destruct (Z.eqb_spec err CIO_SUCCESS) as [X|X]; [congruence|]. cbn [negb] in H. injection H as <- <-. eapply (G [_]); auto. repeat constructor.
  - (* over *)
    destruct (low_op _ _ _ _ _ _ L JH H) as (L' & ET & EH & ER & es & TR & FE). split; [|rewrite TR; apply once_quiet; assumption]. exists q. rewrite ET. split; [exact RP|].
    apply lt_hooked; [congruence|rewrite ET; exact JH|exact L'|]. rewrite TR, hooks_app, HZ. rewrite nohook_hooks; [reflexivity|]. eapply Forall_impl; [|exact FE]. intros x; destruct x; auto.
Qed.

(** Another job is queued behind the close frame. *)
Lemma enq_behind s0 s n j len ch kerr s' os r : rep (T s0) (JClose :: r) -> jobs (T s) = upd (jobs (T s0)) n j -> jnext j = jnext (jobs (T s0) n) -> first (T s) = first (T s0) -> last (T s) = last (T s0) ->
  enqueue_job C s n len ch kerr = Ret (s', os) ->
  os = [] /\ tr s' = tr s /\ same_core s s' /\ (forall m, job_like (jobs (T s) m) (jobs (T s') m)) /\ inflight (T s') = inflight (T s) /\ bswh (T s') = bswh (T s) /\
  exists r', rep (T s') (JClose :: r') /\ forall m, In m (JClose :: r') -> In m (JClose :: r) \/ m = n.
Proof.
  intros R0 EJ EN EF EL H.
  assert (R1 : rep (T s) (JClose :: r)). { apply (rep_ext (T s0)); [exact EF|exact EL| |exact R0]. intros m. rewrite EJ. destruct (jname_dec m n) as [-> | Hm]; [rewrite upd_same; exact EN|rewrite upd_other by assumption; reflexivity]. }
  pose proof (enqueue_frame C _ _ _ _ _ _ _ H) as (SC & _ & JL & _). unfold enqueue_job in H. destruct R1 as [ND (F & LK & LA)]. rewrite F, LA in H. injection H as <- <-.
  split; [reflexivity|]. split; [reflexivity|]. split; [exact SC|]. split; [exact JL|]. split; [reflexivity|]. split; [reflexivity|].
  fold (link_last (T s) (List.last r JClose) n). assert (R1 : rep (T s) (JClose :: r)) by (split; [exact ND|split; [exact F|split; assumption]]).
  destruct (in_dec jname_dec n (JClose :: r)) as [IN|NI].
  - pose proof (rep_again _ _ _ _ R1 LA IN) as X. destruct (upto n (JClose :: r)) as [|a r'] eqn:U; [exfalso; destruct n; discriminate U|].
    assert (a = JClose) as -> by (destruct n; injection U; auto). exists r'. split; [exact X|]. intros m Hm. left. rewrite <- U in Hm. eapply upto_in, Hm.
  - exists (r ++ [n]). split; [apply (rep_push (T s) (JClose :: r)); try assumption; discriminate|]. intros m [Hm|Hm]; [left; left; exact Hm|]. apply in_app_or in Hm. destruct Hm as [Hm|[<-|[]]]; [left; right; exact Hm|right; reflexivity].
Qed.

Lemma late_fire s k q rq f ch s' os : rx_ok s -> cbe s = true -> selfc s = false -> rep (T s) q -> late s k q -> once (tr s) -> (k = [] \/ exists k', k = OFire :: k') -> hooked s = false -> rd s = Some rq -> fire_ok rq f ->
  fire C s rq f ch = Ret (s', os) -> (exists q', rep (T s') q' /\ late s' (os ++ k) q') /\ once (tr s').
Proof.
  intros RX CB SC RP L ON KT HK RD FO H.
  assert (W : exists r, q = JClose :: r /\ bswh (T s) = SHCloseImmediate /\ (0 < inflight (T s))%nat /\ jhandler (jobs (T s) JClose) = None /\ plain_h s q /\ low s [] k /\ hooks (tr s) = 0%nat).
  { destruct L as [top c r k' E TP L HZ|c r k' E Q L HZ|r pre k' E PR Q BW IF JH PH L HZ|r e k' E Q JH PH L HZ|pre x k' E FH CX JH PH L HZ|HK' JH L HZ].
    - exfalso. subst k. destruct TP as [-> | (o & -> & AO)]; destruct KT as [KT | [k'' KT]]; try discriminate KT. cbn [app] in KT. injection KT as -> _. exact AO.
    - exfalso. subst k. destruct KT as [KT | [k'' KT]]; discriminate KT.
    - exists r. destruct PR as [-> | (e & c0 & r0 & ->)]; [cbn [app] in E; subst k'; auto 10|]. exfalso. subst k. destruct KT as [KT | [k'' KT]]; discriminate KT.
    - exfalso. subst k. destruct KT as [KT | [k'' KT]]; discriminate KT.
    - exfalso. subst k. destruct pre as [|o pre]; destruct KT as [KT | [k'' KT]]; try discriminate KT; cbn [app] in KT; injection KT as -> _; [discriminate CX|]. inversion FH as [|? ? X _]. exact X.
    - congruence. }
  clear L. destruct W as (r & -> & BW & IF & JH & PH & L & HZ).
  destruct (fire_arrival C HC s rq f ch s' os RX FO H) as (os1 & -> & AR). rewrite <- app_assoc. cbn [app].
  assert (NP : forall n, In (OMsgNext (Some n)) (OBsReturn :: k) -> n <> JClose /\ n <> JPong /\ jwbh (jobs (T s) n) = None).
  { intros n [X|X]; [discriminate|]. destruct L as (_ & _ & L3). destruct (L3 n X) as (A & B & D). split; [exact A|]. split; [intros ->; specialize (B eq_refl); congruence|]. destruct D as [[]|D]. exact D. }
  assert (L2 : forall s2, (forall n, n <> JClose -> n <> JPong -> jwbh (jobs (T s) n) = None -> jwbh (jobs (T s2) n) = None) -> low s2 [] (OBsReturn :: k)).
  { intros s2 J. destruct L as (L1 & L2 & L3). split; [constructor; [exact I|exact L1]|]. split; [rewrite nc_cons; exact L2|]. intros n X. destruct (NP n X) as (A & B & D). split; [exact A|]. split; [intros; congruence|]. right. auto. }
  destruct AR as [es X1 X2 X3 X4 X5|s1 data X1 X2 X3 X4|s1 addr data X1 X2 X3 X4]; destruct X1 as (x1 & x2 & x3 & x4 & x5).
  - assert (NH : Forall (fun e => is_hook e = false) es) by (eapply Forall_impl; [|exact X3]; intros e; destruct e; intros X; try reflexivity; destruct X).
    split; [|rewrite X2; apply once_more; assumption]. exists (JClose :: r). rewrite x1. split; [exact RP|].
    assert (HZ' : hooks (tr s') = 0%nat) by (rewrite X2, hooks_app, HZ, (nohook_hooks _ NH); reflexivity).
    assert (LO : low s' [] (OBsReturn :: k)) by (apply L2; rewrite x1; auto).
    assert (PH' : plain_h s' (JClose :: r)) by (intros n; rewrite x1; apply PH).
    destruct os1 as [|o [|o2 os1]]; [| |cbn in X4; lia]; cbn [app].
    + eapply (lt_wait _ _ _ _ []); try reflexivity; try eassumption; try (rewrite x1; assumption). left. reflexivity.
    + inversion X5 as [|? ? Y _]; subst. destruct o; try destruct Y.
      * eapply (lt_wait _ _ _ _ []); try reflexivity; try eassumption; try (rewrite x1; assumption); [left; reflexivity|]. apply low_user, LO.
      * eapply (lt_wait _ _ _ _ []); try reflexivity; try eassumption; try (rewrite x1; assumption); [left; reflexivity|]. destruct LO as (l1 & l2 & l3). split; [constructor; [exact I|exact l1]|]. split; [rewrite nc_cons; exact l2|]. intros n [X|X]; [discriminate|apply l3, X].
      * eapply (lt_wait _ _ _ _ [_]); try reflexivity; try eassumption; try (rewrite x1; assumption). right. eauto.
  - unfold handle_ping_frame in X4. destruct (Nat.ltb 125 (length data)); [discriminate|].
    set (c := if Nat.ltb 0 (length data) then _ else _) in *. cbn [log T] in X4.
    match type of X4 with enqueue_job C ?S _ _ _ _ = _ => set (s2 := S) in * end.
    apply (enq_behind s s2 JPong (Job (jnext (jobs (T s) JPong)) (Some c) (Some HPong) PONG_FRAME true (jcont (jobs (T s) JPong)) SHMessage) _ _ _ _ _ r RP) in X4;
      [|unfold s2; cbn [T log set_T set_job set_jobs jobs]; rewrite x1; reflexivity|reflexivity|unfold s2; cbn; rewrite x1; reflexivity|unfold s2; cbn; rewrite x1; reflexivity].
    destruct X4 as (-> & TR & SC2 & JL & E1 & E2 & r' & RP' & IN').
    assert (JJ : forall m, m <> JPong -> job_like (jobs (T s) m) (jobs (T s') m)).
    { intros m Hm. specialize (JL m). unfold s2 in JL. cbn [T log set_T set_job set_jobs jobs] in JL. rewrite upd_other in JL by exact Hm. rewrite x1 in JL. exact JL. }
    assert (JP : jhandler (jobs (T s') JPong) = Some HPong). { destruct (JL JPong) as (-> & _). unfold s2. cbn [T log set_T set_job set_jobs jobs]. rewrite upd_same. reflexivity. }
    assert (TR2 : exists e1 e2, tr s' = e1 :: e2 :: tr s /\ is_hook e1 = false /\ is_hook e2 = false). { rewrite TR. unfold s2. cbn [tr log set_T]. rewrite X2. do 2 eexists. split; [reflexivity|]. split; reflexivity. }
    destruct TR2 as (e1 & e2 & TR2 & N1 & N2). split; [|rewrite TR2; apply (once_more [e1; e2]); [repeat constructor; assumption|assumption|assumption]].
    exists (JClose :: r'). split; [exact RP'|]. cbn [app]. eapply (lt_wait _ _ _ _ []); try reflexivity.
    + left. reflexivity.
    + rewrite E2. unfold s2. cbn [T log set_T set_job set_jobs bswh]. rewrite x1. exact BW.
    + rewrite E1. unfold s2. cbn [T log set_T set_job set_jobs inflight]. rewrite x1. exact IF.
    + destruct (JJ JClose) as (-> & _); [discriminate|exact JH].
    + intros m Hm. destruct (jname_dec m JPong) as [-> | NE]; [right; exact JP|]. destruct (JJ m NE) as (-> & _). destruct (IN' m Hm) as [X|X]; [apply PH, X|congruence].
    + apply L2. intros n _ NE W. destruct (JJ n NE) as (_ & _ & _ & _ & _ & Y). apply Y, W.
    + rewrite TR2. change (e1 :: e2 :: tr s) with ([e1; e2] ++ tr s). rewrite hooks_app, HZ. rewrite nohook_hooks; [reflexivity|]. repeat constructor; assumption.
  - unfold handle_close_frame in X4. binv X4. destruct a as [ccode rs|status len].
    { injection X4 as <- <-. split; [|rewrite X2; exact ON]. exists (JClose :: r). rewrite x1. split; [exact RP|]. cbn [app]. eapply (lt_wait _ _ _ _ [_]); try reflexivity; try (rewrite x1; assumption).
      - right. eauto.
      - intros n; rewrite x1; apply PH.
      - apply L2. rewrite x1. auto.
      - rewrite X2. exact HZ. }
    cbn [log selfc] in X4. rewrite x3, SC in X4. set (reason := if 0 <? len then _ else _) in *. set (s0 := log s1 (EvControl CLOSE_FRAME data)) in *.
    set (s2 := prepare_close_job C s0 status reason None SHResponseClose ch) in *.
    apply (enq_behind s (accept_close s2) JClose (jobs (T s2) JClose) _ _ _ _ _ r RP) in X4;
      [|unfold s2, s0, accept_close, prepare_close_job; cbn [T log set_T set_job set_jobs jobs]; rewrite upd_same, x1; reflexivity
       |unfold s2, s0, prepare_close_job; cbn [T log set_T set_job set_jobs jobs]; rewrite upd_same, x1; reflexivity
       |unfold s2, s0, accept_close, prepare_close_job; cbn [T log set_T set_job set_jobs first]; rewrite x1; reflexivity
       |unfold s2, s0, accept_close, prepare_close_job; cbn [T log set_T set_job set_jobs last]; rewrite x1; reflexivity].
    destruct X4 as (-> & TR & SC2 & JL & E1 & E2 & r' & RP' & IN').
    assert (JJ : forall m, m <> JClose -> job_like (jobs (T s) m) (jobs (T s') m)).
    { intros m Hm. specialize (JL m). unfold s2, s0, accept_close, prepare_close_job in JL. cbn [T log set_T set_job set_jobs jobs] in JL. rewrite upd_other in JL by exact Hm. rewrite x1 in JL. exact JL. }
    assert (JP : jhandler (jobs (T s') JClose) = None). { destruct (JL JClose) as (-> & _). unfold s2, s0, accept_close, prepare_close_job. cbn [T log set_T set_job set_jobs jobs]. rewrite upd_same. reflexivity. }
    assert (TR2 : exists e1 e2, tr s' = e1 :: e2 :: tr s /\ is_hook e1 = false /\ is_hook e2 = false). { rewrite TR. unfold s2, s0, accept_close, prepare_close_job. cbn [tr log set_T]. rewrite X2. do 2 eexists. split; [reflexivity|]. split; reflexivity. }
    destruct TR2 as (e1 & e2 & TR2 & N1 & N2). split; [|rewrite TR2; apply (once_more [e1; e2]); [repeat constructor; assumption|assumption|assumption]].
    exists (JClose :: r'). split; [exact RP'|]. cbn [app]. eapply (lt_wait _ _ _ _ []); try reflexivity.
    + left. reflexivity.
    + rewrite E2. unfold s2, s0, accept_close, prepare_close_job. cbn [T log set_T set_job set_jobs bswh]. rewrite x1. exact BW.
    + rewrite E1. unfold s2, s0, accept_close, prepare_close_job. cbn [T log set_T set_job set_jobs inflight]. rewrite x1. exact IF.
    + exact JP.
    + intros m Hm. destruct (jname_dec m JClose) as [-> | NE]; [left; exact JP|]. destruct (JJ m NE) as (-> & _). destruct (IN' m Hm) as [X|X]; [apply PH, X|congruence].
    + apply L2. intros n NE _ W. destruct (JJ n NE) as (_ & _ & _ & _ & _ & Y). apply Y, W.
    + rewrite TR2. change (e1 :: e2 :: tr s) with ([e1; e2] ++ tr s). rewrite hooks_app, HZ. rewrite nohook_hooks; [reflexivity|]. repeat constructor; assumption.
Qed.

Lemma late_written s q err : rep (T s) q -> late s [] q -> hooked s = false ->
  exists q', rep (set_bs (T s) (pred (inflight (T s))) (bswh (T s))) q' /\ late (set_T s (set_bs (T s) (pred (inflight (T s))) (bswh (T s)))) [OStream (bswh (T s)) err] q'.
Proof.
  intros RP L HK. destruct L as [top c r k' E TP L HZ|c r k' E Q L HZ|r pre k' E PR Q BW IF JH PH L HZ|r e k' E Q JH PH L HZ|pre x k' E FH CX JH PH L HZ|HK' JH L HZ].
  - destruct top; discriminate.
  - discriminate.
  - exists q. split; [apply (rep_ext (T s)); try reflexivity; exact RP|]. rewrite BW. destruct pre; [|discriminate]. cbn [app] in E. subst k'. eapply lt_done; try reflexivity; try assumption; exact Q || assumption.
  - discriminate.
  - destruct pre; discriminate.
  - congruence.
Qed.

(** ** Before an error is reported *)
Record pre (s : ws) (k : list op) (q : list jname) : Prop := {
  p_hook : hooks (tr s) <> 0%nat -> q = [];
  p_pong : close_asked (tr s) = true -> ~ In JPong q /\ match k with OHandler _ (Some HPong) _ _ :: _ | OPongWritten _ :: _ => False | _ => True end;
  p_abort : match k with OAbort :: _ => close_asked (tr s) = true | _ => True end;
  p_next : In (OMsgNext (Some JClose)) k -> exists k', k = OMsgNext (Some JClose) :: k' \/ k = OUser :: OMsgNext (Some JClose) :: k' \/ exists n id e c, k = OHandler n (Some (HUser id)) e c :: OMsgNext (Some JClose) :: k' }.
(** An error is about to be reported. *)
Definition failing (s : ws) (k : list op) (q : list jname) : Prop := exists o k', k = o :: k' /\ err_op o /\ low s q k' /\ hooks (tr s) = 0%nat.

Lemma pre_unasked s k q : normal C (T s) (tr s) (selfc s) k q -> closing s k -> close_asked (tr s) = false -> (match k with OAbort :: _ => False | _ => True end) -> pre s k q.
Proof.
  intros N Z A K. destruct (all_zero _ _ Z A) as (H0 & _). split.
  - congruence.
  - congruence.
  - destruct k as [|o k]; [exact I|]. destruct o; try exact I. destruct K.
  - intros X. apply (n_next _ _ _ _ _ _ N) in X. exfalso. assert (Y : In JClose q) by (destruct q; [discriminate|injection X as ->; left; reflexivity]). apply (n_cls1 _ _ _ _ _ _ N) in Y. congruence.
Qed.
Lemma rd_none s k q : WsRecvProofs.inv C s k -> jwbh (jobs (T s) JPong) <> None -> jhandler (jobs (T s) JPong) = Some HPong -> In JPong q -> rd s = None.
Proof.
  intros IV W HH X. pose proof (i_tok _ _ _ IV) as TK. unfold tokens, pongtok, pongs, pong_job in TK. rewrite HH in TK. destruct (jwbh (jobs (T s) JPong)); [|congruence]. destruct (rd s); [|reflexivity]. cbn [has b2n] in TK. lia.
Qed.
(** An error with the queue unchanged. *)
Lemma fail_same s s' k k' q o : normal C (T s) (tr s) (selfc s) k q -> WsRecvProofs.inv C s' (o :: k') -> Forall idle k' -> nclose k' = 0%nat -> hooks (tr s') = 0%nat -> ~ In JClose q -> T s' = T s ->
  (forall n, In (OMsgNext (Some n)) k' -> In (OMsgNext (Some n)) k) -> err_op o -> failing s' (o :: k') q.
Proof.
  intros N IV KI KC HZ NJ ET IN EO. exists o, k'. split; [reflexivity|]. split; [exact EO|]. split; [|exact HZ]. split; [exact KI|]. split; [exact KC|].
  intros n X. apply IN in X. apply (n_next _ _ _ _ _ _ N) in X. assert (Y : In n q) by (destruct q; [discriminate|injection X as ->; left; reflexivity]).
  split; [intros ->; exact (NJ Y)|]. split; [|left; exact Y]. intros ->. destruct (n_ready _ _ _ _ _ _ N JPong Y) as (W & _ & HH). eapply (rd_none s'); try eassumption; rewrite ET; assumption.
Qed.
(** An error when nothing else was waiting to be sent. *)
Lemma fail_alone s' k' q o : Forall idle k' -> nclose k' = 0%nat -> hooks (tr s') = 0%nat -> nnext k' = 0%nat -> err_op o -> failing s' (o :: k') q.
Proof.
  intros KI KC HZ NN EO. exists o, k'. split; [reflexivity|]. split; [exact EO|]. split; [|exact HZ]. split; [exact KI|]. split; [exact KC|]. intros n X. exfalso. eapply nnext_0; eassumption.
Qed.
Lemma no_err k : Forall idle k -> ~ err_top k.
Proof. intros H X. destruct H as [|o k Ho _]; [exact X|]. cbn in X. destruct o; try destruct Ho; exact X. Qed.

Lemma early_op s o k q ch s' os : jhandler (jobs (T s) JClose) <> Some HPong -> choice_ok ch -> base (T s) (tr s) (o :: k) q -> normal C (T s) (tr s) (selfc s) (o :: k) q -> closing s (o :: k) -> pre s (o :: k) q -> selfc s = false ->
  WsRecvProofs.inv C s' (os ++ k) -> run_op C s o ch = Ret (s', os) ->
  (err_top (os ++ k) -> exists q', rep (T s') q' /\ failing s' (os ++ k) q') /\
  (forall q', normal C (T s') (tr s') (selfc s') (os ++ k) q' -> closing s' (os ++ k) -> rep (T s') q' -> pre s' (os ++ k) q').
Proof.
  intros NP CH B N Z P SC IV H. pose proof (n_tail _ _ _ _ _ _ N) as KI. cbn [tl] in KI. pose proof (n_top _ _ _ _ _ _ N) as TO. pose proof (b_rep _ _ _ _ B) as RP. pose proof (z_shape _ _ Z) as SH.
  pose proof (n_next _ _ _ _ _ _ N) as NX.
  (* same queue, nothing new on top *)
  assert (Q0 : T s' = T s -> hooks (tr s') = hooks (tr s) -> close_asked (tr s') = close_asked (tr s) -> (os = [] \/ os = [OUser]) ->
    (In (OMsgNext (Some JClose)) k -> o = OUser /\ os = [] \/ exists n id e c, o = OHandler n (Some (HUser id)) e c /\ os = [OUser]) ->
    (err_top (os ++ k) -> exists q', rep (T s') q' /\ failing s' (os ++ k) q') /\
    (forall q', normal C (T s') (tr s') (selfc s') (os ++ k) q' -> closing s' (os ++ k) -> rep (T s') q' -> pre s' (os ++ k) q')).
  { intros ET EH EA EO SX. assert (KO : Forall idle (os ++ k)) by (destruct EO as [-> | ->]; [exact KI|constructor; [exact I|exact KI]]). split; [intros X; destruct (no_err _ KO X)|].
    intros q' _ _ R'. rewrite ET in R'. rewrite (rep_fun _ _ _ R' RP). split.
    - rewrite EH. apply (p_hook _ _ _ P).
    - rewrite EA. intros A. split; [apply (p_pong _ _ _ P A)|]. destruct KO as [|x kk Hx _]; [exact I|]. destruct x; try destruct Hx; exact I.
    - destruct KO as [|x kk Hx _]; [exact I|]. destruct x; try destruct Hx; exact I.
    - intros X. assert (X' : In (OMsgNext (Some JClose)) k) by (destruct EO as [-> | ->]; [exact X|destruct X as [X|X]; [discriminate|exact X]]).
      destruct (p_next _ _ _ P (or_intror X')) as (k1 & E). destruct (SX X') as [[-> ->]|(n & id & e & c & -> & ->)]; cbn [app].
      + destruct E as [E|[E|(n & id & e & c & E)]]; try discriminate E. injection E as ->. exists k1. left. reflexivity.
      + destruct E as [E|[E|(n' & id' & e' & c' & E)]]; try discriminate E. injection E as _ _ _ _ ->. exists k1. right. left. reflexivity. }
  assert (NC : In (OMsgNext (Some JClose)) k -> (exists k1, o = OMsgNext (Some JClose) /\ k = k1) \/ o = OUser \/ exists n id e c, o = OHandler n (Some (HUser id)) e c).
  { intros X. destruct (p_next _ _ _ P (or_intror X)) as (k1 & [E|[E|(n & id & e & c & E)]]); injection E as -> ->; [left; eauto|right; left; reflexivity|right; right; eauto 6]. }
  destruct o; cbn [run_op] in H; try (destruct TO; fail).
  - injection H as <- <-. apply Q0; auto.
  - injection H as <- <-. apply Q0; auto. intros X. exfalso. destruct (NC X) as [(? & E & _)|[E|(? & ? & ? & ? & E)]]; discriminate E.
  - (* OAbort *) pose proof (p_abort _ _ _ P) as A. cbn beta iota in A. destruct (p_pong _ _ _ P A) as [NPQ _]. pose proof (n_tok _ _ _ _ _ _ N) as (T1 & T2 & T3).
    destruct (one_pong q) as [-> | ->]; [apply B|exact T3| |destruct NPQ; left; reflexivity].
    rewrite rep_pop_nil in H by exact RP. injection H as <- <-. apply Q0; auto. intros X. specialize (NX JClose (or_intror X)). discriminate.
  - (* OClose *) assert (q = []) as ->. { destruct SH as [F|F]; [eapply rep_nil; eassumption|congruence]. }
    assert (KN : forall n, ~ In (OMsgNext (Some n)) k) by (intros n X; specialize (NX n (or_intror X)); discriminate).
    destruct (hasrh s); injection H as <- <-; (split; [intros []|]); intros q' _ _ R'; (assert (q' = []) as -> by (eapply rep_fun; eassumption)); (split; [reflexivity|intros _; split; [intros []|exact I]|exact I|]); cbn [app In]; intros X; exfalso;
      repeat (destruct X as [X|X]; [discriminate X|]); exact (KN _ X).
  - assert (q = []) as ->. { destruct SH as [F|F]; [eapply rep_nil; eassumption|congruence]. }
    assert (KN : forall n, ~ In (OMsgNext (Some n)) k) by (intros n X; specialize (NX n (or_intror X)); discriminate).
    injection H as <- <-; (split; [intros []|]); intros q' _ _ R'; (assert (q' = []) as -> by (eapply rep_fun; eassumption)); (split; [reflexivity|intros _; split; [intros []|exact I]|exact I|]); cbn [app In]; intros X; exfalso;
      repeat (destruct X as [X|X]; [discriminate X|]); exact (KN _ X).
  - (* OStream *) pose proof (tok_in _ _ _ _ _ _ N I) as TK. pose proof (nstream_app [OStream sh err] k) as NS. pose proof (nnext_app [OStream sh err] k) as NN. cbn [app] in NS, NN. change (nstream [OStream sh err]) with 1%nat in NS. change (nnext [OStream sh err]) with 0%nat in NN.
    destruct q as [|n q]; [cbn [one] in TK; lia|]. cbn [one] in TK. assert (NNK : nnext k = 0%nat) by lia. clear NS NN TK.
    pose proof (n_sh _ _ _ _ _ _ N) as [_ SHN]. pose proof (n_ready _ _ _ _ _ _ N n (or_introl eq_refl)) as [WB RD].
    destruct (jwbh (jobs (T s) n)) as [c|] eqn:W; [|congruence]. pose proof (popped_rep _ _ _ RP) as RP'. cbn [shape] in SH.
    assert (KC : nclose k = 0%nat) by (rewrite nc_cons in SH; exact SH).
    rewrite (pop_form _ _ _ _ RP W) in H. cbn [obind] in H. fold (popped (T s) n q) in H. rewrite popped_handler in H.
    assert (HZ : hooks (tr s) = 0%nat) by (destruct (hooks (tr s)) eqn:HH; [reflexivity|]; assert (XX : hooks (tr s) <> 0%nat) by lia; apply (p_hook _ _ _ P) in XX; discriminate).
    assert (PR : forall os', s' = set_T s (popped (T s) n q) -> os = os' -> (close_asked (tr s) = true -> match os' with OHandler _ (Some HPong) _ _ :: _ | OPongWritten _ :: _ => False | _ => True end) ->
       (match os' with OAbort :: _ => close_asked (tr s) = true | [] => False | _ => True end) ->
       (In (OMsgNext (Some JClose)) os' -> exists n id e c, os' = [OHandler n (Some (HUser id)) e c; OMsgNext (Some JClose)]) ->
       forall q', normal C (T s') (tr s') (selfc s') (os ++ k) q' -> closing s' (os ++ k) -> rep (T s') q' -> pre s' (os ++ k) q').
    { intros os' -> -> X1 X2 X3 q' _ _ R'. cbn [T set_T] in R'. rewrite (rep_fun _ _ _ R' RP'). split; cbn [tr set_T].
      - congruence.
      - intros A. split; [intros X; apply (p_pong _ _ _ P A); right; exact X|]. specialize (X1 A). destruct os'; [destruct X2|exact X1].
      - destruct os'; [destruct X2|exact X2].
      - intros X. apply in_app_or in X. destruct X as [X|X]; [|destruct (nnext_0 _ _ NNK X)]. destruct (X3 X) as (n' & id & e & c' & ->). exists k. right. right. exists n', id, e, c'. reflexivity. }
    rewrite SHN in H.
    assert (MSG : jsh (jobs (T s) n) = SHMessage -> forall hh, jhandler (jobs (T s) n) = Some hh -> s' = set_T s (popped (T s) n q) /\ os = [OHandler n (Some hh) err (tl c); OMsgNext (hd_error q)]).
    { intros S1 hh S2. rewrite S1, S2 in H. injection H as <- <-. auto. }
    destruct n; cbn [ready] in RD.
    + destruct RD as [S1 [id S2]]. destruct (MSG S1 _ S2) as [ES EO]. split; [rewrite EO; intros [X _]; discriminate X|]. eapply PR; [exact ES|exact EO| | |]; [intros _; exact I|exact I|].
      intros [X|[X|[]]]; [discriminate X|]. injection X as ->. eauto 8.
    + destruct RD as [S1 [id S2]]. destruct (MSG S1 _ S2) as [ES EO]. split; [rewrite EO; intros [X _]; discriminate X|]. eapply PR; [exact ES|exact EO| | |]; [intros _; exact I|exact I|].
      intros [X|[X|[]]]; [discriminate X|]. injection X as ->. eauto 8.
    + destruct RD as [S1 S2]. destruct (MSG S1 _ S2) as [ES EO].
      assert (A : close_asked (tr s) = false) by (destruct (close_asked (tr s)) eqn:A; [|reflexivity]; destruct (p_pong _ _ _ P A) as [X _]; destruct X; left; reflexivity).
      assert (NJ : ~ In JClose q) by (intros X; assert (Y : In JClose (JPong :: q)) by (right; exact X); apply (n_cls1 _ _ _ _ _ _ N) in Y; congruence).
      assert (NJP : ~ In JPong q) by (destruct RP as [ND _]; inversion ND; assumption).
      split.
      * intros ET. rewrite EO in *. exists q. rewrite ES. split; [exact RP'|]. cbn [app]. do 2 eexists. split; [reflexivity|]. split; [exact ET|]. split; [|exact HZ].
        split; [constructor; [exact I|exact KI]|]. split; [rewrite nc_cons; exact KC|]. intros m [X|X]; [|destruct (nnext_0 _ _ NNK X)]. injection X as X. assert (Y : In m q) by (destruct q; [discriminate|injection X as ->; left; reflexivity]).
        split; [intros ->; exact (NJ Y)|]. split; [intros ->; destruct (NJP Y)|left; exact Y].
      * eapply PR; [exact ES|exact EO| | |]; [congruence|exact I|]. intros [X|[X|[]]]; [discriminate X|]. injection X as X. exfalso. apply NJ. destruct q; [discriminate|injection X as ->; left; reflexivity].
    + assert (A : close_asked (tr s) = true) by (apply (n_cls1 _ _ _ _ _ _ N); left; reflexivity).
      destruct RD as [[S1 S2]|[S1 [id S2]]]; rewrite S1 in H; injection H as ES EO; symmetry in ES, EO; (split; [rewrite EO; intros []|]); (eapply PR; [exact ES|exact EO| | |]); auto; cbn; intros X; repeat (destruct X as [X|X]; try discriminate X); destruct X.
  - (* OHandler *) unfold call_handler in H. destruct h as [[id|]|]; injection H as <- <-.
    + apply Q0; auto. intros X. right. eauto 8.
    + (* pong written *) cbn [top_ok] in TO. specialize (TO eq_refl). assert (A : close_asked (tr s) = false) by (destruct (close_asked (tr s)) eqn:A; [|reflexivity]; destruct (p_pong _ _ _ P A) as [_ []]).
      split; [intros X; cbn in X; congruence|]. intros q' N' Z' R'. apply pre_unasked; try assumption. exact I.
    + apply Q0; auto. intros X. destruct (NC X) as [(? & E & _)|[E|(? & ? & ? & ? & E)]]; discriminate E.
  - unfold call_handler in H.
    assert (KN : In (OMsgNext (Some JClose)) k -> False) by (intros X; destruct (NC X) as [(? & E & _)|[E|(? & ? & ? & ? & E)]]; discriminate E).
    destruct (jhandler (jobs (T s) JClose)) as [[id|]|] eqn:JH; injection H as <- <-; [apply Q0; auto; intros X; destruct (KN X)| |apply Q0; auto; intros X; destruct (KN X)].
    exact (False_ind _ (NP eq_refl)).
  - (* OMsgNext *)
    destruct j as [n|]; [|injection H as <- <-; apply Q0; auto; intros X; destruct (NC X) as [(? & E & _)|[E|(? & ? & ? & ? & E)]]; discriminate E].
    pose proof (tok_in _ _ _ _ _ _ N I) as TK. pose proof (nnext_app [OMsgNext (Some n)] k) as NN. cbn [app] in NN. change (nnext [OMsgNext (Some n)]) with 1%nat in NN.
    specialize (NX n (or_introl eq_refl)). destruct q as [|n' q]; [discriminate|]. injection NX as ->. cbn [one] in TK. assert (NNK : nnext k = 0%nat) by lia. clear NN TK.
    assert (HZ : hooks (tr s) = 0%nat) by (destruct (hooks (tr s)) eqn:HH; [reflexivity|]; assert (XX : hooks (tr s) <> 0%nat) by lia; apply (p_hook _ _ _ P) in XX; discriminate).
    cbn [shape] in SH. assert (KC : nclose k = 0%nat) by (rewrite nc_cons in SH; exact SH).
    destruct (jwbh (jobs (T s) n)) as [c|] eqn:W; [|discriminate]. binv H. destruct a as [s1 r]. cbn [fst snd] in H.
    apply send_frame_frame in E. destruct E as ((c1 & c2 & c3 & c4 & c5 & _) & (x1 & x2 & E2 & _) & E3 & E4 & E5 & E6 & E7 & _).
    assert (RP1 : rep (T s1) (n :: q)). { apply (rep_ext (T s)); try assumption. intros m. destruct (jname_dec m n) as [-> | Hm]; [exact E3|rewrite E4 by assumption; reflexivity]. }
    assert (X1 : s1 = s') by (destruct r; injection H; auto). subst s1.
    assert (HZ' : hooks (tr s') = 0%nat) by (rewrite E2; exact HZ). assert (EA : close_asked (tr s') = close_asked (tr s)) by (rewrite E2; reflexivity).
    assert (PR : (os = [] \/ exists sh e, os = [OStream sh e]) -> forall q', normal C (T s') (tr s') (selfc s') (os ++ k) q' -> closing s' (os ++ k) -> rep (T s') q' -> pre s' (os ++ k) q').
    { intros EO q' _ _ R'. rewrite (rep_fun _ _ _ R' RP1). split; [congruence|rewrite EA; intros A; split; [apply (p_pong _ _ _ P A)|]|..].
      - destruct EO as [-> | (sh & e & ->)]; [|exact I]. cbn [app]. destruct KI as [|x kk Hx _]; [exact I|]. destruct x; try destruct Hx; exact I.
      - destruct EO as [-> | (sh & e & ->)]; [|exact I]. cbn [app]. destruct KI as [|x kk Hx _]; [exact I|]. destruct x; try destruct Hx; exact I.
      - intros X. exfalso. apply (nnext_0 _ JClose NNK). destruct EO as [-> | (sh & e & ->)]; [exact X|]. destruct X as [X|X]; [discriminate X|exact X]. }
    destruct r; injection H as <-.
    + split; [intros X; destruct (no_err _ KI X)|apply PR; left; reflexivity].
    + split; [intros []|apply PR; right; eauto].
    + split; [intros _; exists (n :: q); split; [exact RP1|]; apply fail_alone; auto; exact I|]. intros q' N' _ _. pose proof (n_top _ _ _ _ _ _ N') as X. destruct X.
  - (* OPongWritten *) assert (A : close_asked (tr s) = false) by (destruct (close_asked (tr s)) eqn:A; [|reflexivity]; destruct (p_pong _ _ _ P A) as [_ []]).
    cbn [top_ok] in TO. subst err. cbn [negb Z.eqb CIO_SUCCESS] in H. destruct (all_zero _ _ Z A) as (H0 & K0 & _). rewrite nc_cons in K0. cbn [is_closing b2n Nat.add] in K0.
    assert (NJ : ~ In JClose q) by (intros X; apply (n_cls1 _ _ _ _ _ _ N) in X; congruence).
    change (negb (Z.eqb CIO_SUCCESS CIO_SUCCESS)) with false in H. cbn beta iota in H. apply ret_inj in H. unfold bs_read in H. destruct (_ && _)%bool; injection H as <- <-.
    + split; [intros _; exists q; split; [exact RP|]; eapply fail_same; try eassumption; try reflexivity; try exact I; intros n X; right; exact X|]. intros q' N' _ _. destruct (n_top _ _ _ _ _ _ N').
    + split; [destruct (Nat.eqb _ _); [intros []|intros X; destruct (no_err _ KI X)]|]. intros q' N' Z' R'. apply pre_unasked; try assumption. destruct (Nat.eqb _ _); [exact I|]. cbn [app]. destruct KI as [|x kk Hx _]; [exact I|]. destruct x; try destruct Hx; exact I.
  - injection H as <- <-. apply Q0; auto. intros X. destruct (NC X) as [(? & E & _)|[E|(? & ? & ? & ? & E)]]; discriminate E.
  - injection H as <- <-. apply Q0; auto. intros X. destruct (NC X) as [(? & E & _)|[E|(? & ? & ? & ? & E)]]; discriminate E.
Qed.

Definition dull (k : list op) : Prop := Forall idle k /\ nclose k = 0%nat /\ nnext k = 0%nat.
Lemma enq_err s0 k q s1 n len ch kerr s' os : normal C (T s0) (tr s0) (selfc s0) k q -> rep (T s0) q -> first (T s1) = first (T s0) -> Forall idle k -> nclose k = 0%nat -> (forall e, dull (kerr e)) ->
  hooks (tr s1) = 0%nat -> enqueue_job C s1 n len ch kerr = Ret (s', os) ->
  (err_top (os ++ k) -> exists q', rep (T s') q' /\ failing s' (os ++ k) q') /\ close_asked (tr s') = close_asked (tr s1) /\ (os = [] \/ exists o os', os = o :: os' /\ o <> OAbort).
Proof.
  intros N RP EF KI KC KE HZ H. unfold enqueue_job in H. destruct (first (T s1)) as [f|] eqn:F.
  - destruct (last (T s1)) as [l|]; [|discriminate]. injection H as <- <-. split; [intros X; destruct (no_err _ KI X)|]. split; [reflexivity|left; reflexivity].
  - assert (q = []) as -> by (eapply rep_nil; [exact RP|congruence]). binv H. destruct a as [s2 r]. cbn [fst snd] in H.
    apply send_frame_frame in E. destruct E as (_ & (x1 & x2 & E2 & _) & _ & _ & _ & E6 & E7 & _). cbn [T set_T first last set_last set_first tr] in E2, E6, E7.
    assert (s2 = s') by (destruct r; injection H; auto). subst s2. assert (EA : close_asked (tr s') = close_asked (tr s1)) by (rewrite E2; reflexivity). assert (HZ' : hooks (tr s') = 0%nat) by (rewrite E2; exact HZ).
    assert (NNK : nnext k = 0%nat).
    { destruct (nnext k) eqn:NN; [reflexivity|]. exfalso. unfold nnext in NN. destruct (filter is_next k) as [|o l] eqn:FI; [discriminate|]. assert (X : In o (filter is_next k)) by (rewrite FI; left; reflexivity).
      apply filter_In in X. destruct X as [X Y]. destruct o as [| | | | | | | | | |[m|]| | |]; try discriminate Y. apply (n_next _ _ _ _ _ _ N) in X. discriminate. }
    destruct r; injection H as <-.
    + split; [intros X; destruct (no_err _ KI X)|]. split; [exact EA|left; reflexivity].
    + split; [intros []|]. split; [exact EA|right; do 2 eexists; split; [reflexivity|discriminate]].
    + split; [|split; [exact EA|right; do 2 eexists; split; [reflexivity|discriminate]]]. intros _. exists [n]. split; [split; [repeat constructor; intros []|]; split; [exact E6|]; split; [exact I|exact E7]|].
      cbn [app]. destruct (KE err) as (k1 & k2 & k3). apply fail_alone; [apply Forall_app; auto|rewrite nclose_app; lia|exact HZ'|rewrite nnext_app; lia|exact I].
Qed.
Lemma peer_over l : peer_closed l = true -> over l = true.
Proof. unfold peer_closed, over. intros H. apply existsb_exists in H. destruct H as (e & A & B). apply existsb_exists. exists e. split; [exact A|]. destruct e; try discriminate B; exact B. Qed.
Lemma not_abort os k : Forall idle k -> os = [] \/ (exists o os', os = o :: os' /\ o <> OAbort) -> match os ++ k with OAbort :: _ => False | _ => True end.
Proof.
  intros KI [-> | (o & os' & -> & NE)]; cbn [app]; [destruct KI as [|x kk Hx _]; [exact I|]; destruct x; try destruct Hx; exact I|]. destruct o; try exact I. congruence.
Qed.

Lemma early_call s a ch s' os k q : proper (s, k) (XApi a ch) -> no_close_call (XApi a ch) -> user_control k -> base (T s) (tr s) k q -> normal C (T s) (tr s) (selfc s) k q -> closing s k -> selfc s = false ->
  WsRecvProofs.inv C s' (os ++ k) -> call C s a ch = Ret (s', os) ->
  (err_top (os ++ k) -> exists q', rep (T s') q' /\ failing s' (os ++ k) q') /\
  (forall q', normal C (T s') (tr s') (selfc s') (os ++ k) q' -> closing s' (os ++ k) -> rep (T s') q' -> pre s' (os ++ k) q').
Proof.
  intros PR NC UC B N Z SC IV H. pose proof (b_rep _ _ _ _ B) as RP. cbn [proper fst] in PR. destruct PR as [OV PR].
  assert (KT : calm_top k) by (destruct UC as [-> | [k' ->]]; [left; reflexivity|right; exists OUser, k'; auto]). destruct (calm_idle _ _ _ _ _ _ N KT) as [KI _].
  assert (A : close_asked (tr s) = false). { destruct (close_asked (tr s)) eqn:A; [|reflexivity]. destruct (n_cls2 _ _ _ _ _ _ N A) as [X|X]; [congruence|]. apply peer_over in X. congruence. }
  destruct (all_zero _ _ Z A) as (H0 & K0 & _).
  assert (NJ : ~ In JClose q) by (intros X; apply (n_cls1 _ _ _ _ _ _ N) in X; congruence).
  assert (FIN : (err_top (os ++ k) -> exists q', rep (T s') q' /\ failing s' (os ++ k) q') /\ close_asked (tr s') = false /\ (os = [] \/ exists o os', os = o :: os' /\ o <> OAbort) ->
    (err_top (os ++ k) -> exists q', rep (T s') q' /\ failing s' (os ++ k) q') /\
    (forall q', normal C (T s') (tr s') (selfc s') (os ++ k) q' -> closing s' (os ++ k) -> rep (T s') q' -> pre s' (os ++ k) q')).
  { intros (X & Y & Y'). split; [exact X|]. intros q' N' Z' R'. apply pre_unasked; try assumption. apply not_abort; assumption. }
  apply FIN. clear FIN.
  assert (RF : close_asked (tr s') = false -> os = [] -> (err_top (os ++ k) -> exists q', rep (T s') q' /\ failing s' (os ++ k) q') /\ close_asked (tr s') = false /\ (os = [] \/ exists o os', os = o :: os' /\ o <> OAbort)).
  { intros X ->. split; [intros Y; destruct (no_err _ KI Y)|]. auto. }
  assert (DU : forall e : BinNums.Z, dull []) by (intros _; split; [constructor|split; reflexivity]).
  assert (EN : forall s1 n len kerr, first (T s1) = first (T s) -> (forall e, dull (kerr e)) -> hooks (tr s1) = hooks (tr s) -> close_asked (tr s1) = close_asked (tr s) -> enqueue_job C s1 n len ch kerr = Ret (s', os) ->
     (err_top (os ++ k) -> exists q', rep (T s') q' /\ failing s' (os ++ k) q') /\ close_asked (tr s') = false /\ (os = [] \/ exists o os', os = o :: os' /\ o <> OAbort)).
  { intros s1 n len kerr E1 E2 E3 E4 E5. eapply (enq_err s k q s1) in E5; try eassumption; [|congruence]. destruct E5 as (X & Y & Y'). split; [exact X|]. split; [congruence|exact Y']. }
  unfold call, refuse in H. destruct a as [|id flen p lf bin|id p|id p|id p|id code reason].
  - cbn [log R set_hasrh rem] in H. unfold bs_read in H. destruct (rem (R s) =? 0); destruct (_ && _)%bool; injection H as <- <-; cbn [app];
      (split; [|split; [exact A|]]); first [destruct (Nat.eqb _ _); [right; do 2 eexists; split; [reflexivity|discriminate]|left; reflexivity] | right; do 2 eexists; split; [reflexivity|discriminate]
        | destruct (Nat.eqb _ _); [intros []|intros X; destruct (no_err _ KI X)] | idtac];
      (intros _; exists q; split; [exact RP|]; eapply fail_same; try eassumption; try reflexivity; try exact I; auto).
  - destruct id as [id|]; [|injection H as <- <-; apply RF; [exact A|reflexivity]].
    cbn [log T] in H. destruct (jwbh (jobs (T s) JMsg)) eqn:W; [injection H as <- <-; apply RF; [exact A|reflexivity]|].
    destruct (if fragw (T s) then _ else _) as [kind fw]. eapply EN; [| | | |exact H]; try reflexivity. intros e; split; [|split]; repeat constructor.
  - eapply EN; [| | | |exact H]; try reflexivity. intros e; split; [|split]; repeat constructor.
  - unfold write_ping_or_pong, refuse in H. destruct id as [id|]; [|injection H as <- <-; apply RF; [exact A|reflexivity]]. destruct (negb _); [injection H as <- <-; apply RF; [exact A|reflexivity]|].
    cbn [log T] in H. destruct (jwbh (jobs (T s) JPing)) eqn:W; [injection H as <- <-; apply RF; [exact A|reflexivity]|]. destruct p as [c|]; [|discriminate]. eapply EN; [| | | |exact H]; try reflexivity. exact DU.
  - destruct PR.
  - destruct NC.
Qed.

Lemma early_fire s k q rq f ch s' os : WsRecvProofs.inv C s k -> base (T s) (tr s) k q -> normal C (T s) (tr s) (selfc s) k q -> closing s k -> selfc s = false ->
  (k = [] \/ exists k', k = OFire :: k') -> hooked s = false -> rd s = Some rq -> fire_ok rq f -> WsRecvProofs.inv C s' (os ++ k) -> fire C s rq f ch = Ret (s', os) ->
  (err_top (os ++ k) -> exists q', rep (T s') q' /\ failing s' (os ++ k) q') /\
  (forall q', normal C (T s') (tr s') (selfc s') (os ++ k) q' -> closing s' (os ++ k) -> rep (T s') q' -> pre s' (os ++ k) q').
Proof.
  intros IV B N Z SC KT HK RD FO IV' H. pose proof (b_rep _ _ _ _ B) as RP.
  assert (KI : Forall idle k). { pose proof (n_tail _ _ _ _ _ _ N) as X. destruct KT as [-> | [k' ->]]; [constructor|constructor; [exact I|exact X]]. }
  pose proof (open_reading C s k rq IV RD) as NPC.
  assert (A : close_asked (tr s) = false). { destruct (close_asked (tr s)) eqn:A; [|reflexivity]. destruct (n_cls2 _ _ _ _ _ _ N A) as [X|X]; congruence. }
  destruct (all_zero _ _ Z A) as (H0 & K0 & _).
  assert (NJ : ~ In JClose q) by (intros X; apply (n_cls1 _ _ _ _ _ _ N) in X; congruence).
  assert (NP : ~ In JPong q). { intros X. destruct (n_ready _ _ _ _ _ _ N JPong X) as (W & _ & HH). assert (rd s = None) by (eapply rd_none; eassumption). congruence. }
  assert (N2 : normal C (T s) (tr s) (selfc s) (OBsReturn :: k) q) by (apply swap_calm; assumption).
  set (k2 := OBsReturn :: k) in *. assert (KI2 : Forall idle k2) by (constructor; [exact I|exact KI]). assert (K2 : nclose k2 = 0%nat) by (unfold k2; rewrite nc_cons; exact K0).
  destruct (fire_arrival C HC s rq f ch s' os) as (os1 & -> & AR); [destruct (i_mask _ _ _ IV) as (? & ? & _); split; assumption|exact FO|exact H|].
  rewrite <- app_assoc in *. cbn [app] in *. fold k2 in IV' |- *.
  assert (FIN : (err_top (os1 ++ k2) -> exists q', rep (T s') q' /\ failing s' (os1 ++ k2) q') /\ close_asked (tr s') = false /\ (os1 = [] \/ exists o os', os1 = o :: os' /\ o <> OAbort) ->
    (err_top (os1 ++ k2) -> exists q', rep (T s') q' /\ failing s' (os1 ++ k2) q') /\
    (forall q', normal C (T s') (tr s') (selfc s') (os1 ++ k2) q' -> closing s' (os1 ++ k2) -> rep (T s') q' -> pre s' (os1 ++ k2) q')).
  { intros (X & Y & Y'). split; [exact X|]. intros q' N' Z' R'. apply pre_unasked; try assumption. apply not_abort; assumption. }
  assert (DU : forall e : BinNums.Z, dull []) by (intros _; split; [constructor|split; reflexivity]).
  destruct AR as [es X1 X2 X3 X4 X5|s1 data X1 X2 X3 X4|s1 addr data X1 X2 X3 X4]; destruct X1 as (x1 & x2 & x3 & x4 & x5).
  - assert (LE : Forall loud es). { eapply Forall_impl; [|exact X3]. intros e. destruct e; intros X; try exact I; destruct X. }
    apply FIN. split; [|split; [rewrite X2, asked_app, A, (loud_asked _ LE); reflexivity|]].
    + destruct os1 as [|o [|o2 os1]]; [intros X; destruct (no_err _ KI2 X)| |cbn in X4; lia]. intros ET. cbn [app] in *. exists q. rewrite x1. split; [exact RP|]. eapply fail_same; try eassumption; try exact ET; [|auto].
      rewrite X2, hooks_app, H0, (loud_hooks _ LE). reflexivity.
    + destruct os1 as [|o os1]; [left; reflexivity|right]. exists o, os1. split; [reflexivity|]. inversion X5 as [|? ? Y _]; subst. intros ->. exact Y.
  - unfold handle_ping_frame in X4. destruct (Nat.ltb 125 (length data)); [discriminate|]. apply FIN.
    match type of X4 with enqueue_job C ?S _ _ _ _ = _ => set (s2 := S) in * end.
    assert (E1 : close_asked (tr s2) = false) by (unfold s2; cbn [tr log set_T]; rewrite X2; exact A).
    eapply (enq_err s k2 q s2) in X4; try eassumption.
    + destruct X4 as (X & Y & Y'). split; [exact X|]. split; [congruence|exact Y'].
    + unfold s2. cbn [T log set_T set_job set_jobs first]. rewrite x1. reflexivity.
    + unfold s2; cbn [tr log set_T]; rewrite X2; exact H0.
  - unfold handle_close_frame in X4. binv X4. destruct a as [ccode rs|status len].
    { injection X4 as <- <-. apply FIN. split; [|split; [rewrite X2; exact A|right; do 2 eexists; split; [reflexivity|discriminate]]]. intros _. exists q. rewrite x1. split; [exact RP|].
      eapply fail_same; try eassumption; try exact I; [rewrite X2; exact H0|auto]. }
    cbn [log selfc] in X4. rewrite x3, SC in X4. set (reason := if 0 <? len then _ else _) in *. set (s0 := log s1 (EvControl CLOSE_FRAME data)) in *.
    set (s2 := prepare_close_job C s0 status reason None SHResponseClose ch) in *.
    assert (J1 : T s2 = set_job (T s) JClose (jobs (T s2) JClose)) by (unfold s2, prepare_close_job; cbn [T set_T set_job set_jobs jobs s0 log]; rewrite upd_same, x1; reflexivity).
    assert (R2 : rep (T (accept_close s2)) q).
    { change (T (accept_close s2)) with (T s2). rewrite J1. apply set_job_rep; [exact RP|]. unfold s2, prepare_close_job. cbn [T set_T set_job set_jobs jobs s0 log]. rewrite upd_same, x1. reflexivity. }
    pose proof (enqueue_rep C _ _ _ _ _ _ _ _ R2 NJ X4) as R3. destruct (enqueue_frame C _ _ _ _ _ _ _ X4) as (_ & TR & _ & _ & OS).
    assert (H1 : hooks (tr (accept_close s2)) = 0%nat) by (unfold accept_close, s2, prepare_close_job, s0; cbn [tr log set_T]; rewrite X2; exact H0).
    eapply (enq_err s k2 q (accept_close s2)) in X4; try eassumption.
    + destruct X4 as (X & Y & Y'). split; [exact X|]. intros q' N' Z' R'. rewrite (rep_fun _ _ _ R' R3). 
      assert (HZ' : hooks (tr s') = 0%nat) by (destruct TR as [-> | (c & ->)]; exact H1).
      assert (OS' : os1 = [] \/ exists sh e, os1 = [OStream sh e]) by (destruct OS as [-> | [(sh & e & ->) | (e & msg & ->)]]; [left; reflexivity|right; eauto|destruct (n_top _ _ _ _ _ _ N')]).
      split.
      * congruence.
      * intros _. split; [intros I1; apply in_app_or in I1; destruct I1 as [I1|[I1|[]]]; [exact (NP I1)|discriminate I1]|]. destruct OS' as [-> | (sh & e & ->)]; exact I.
      * destruct OS' as [-> | (sh & e & ->)]; exact I.
      * intros I1. exfalso. assert (I2 : In (OMsgNext (Some JClose)) k2) by (destruct OS' as [-> | (sh & e & ->)]; [exact I1|destruct I1 as [I1|I1]; [discriminate I1|exact I1]]).
        apply (n_next _ _ _ _ _ _ N2) in I2. apply NJ. destruct q; [discriminate|injection I2 as ->; left; reflexivity].
    + change (T (accept_close s2)) with (T s2). rewrite J1. reflexivity.
Qed.

(** ** All executions *)
Definition phase (s : ws) (k : list op) (q : list jname) : Prop := if cbe s then late s k q else (err_top k /\ failing s k q) \/ (~ err_top k /\ pre s k q).
Lemma once_start s k : reach C remote (s, k) -> cbe s = false -> once (tr s).
Proof. intros H CB. destruct (remote_self _ _ H) as (_ & _ & L). apply tidy_once; [|exact L]. apply (reach_closing C HC s k); [apply remote_proper, H|exact CB]. Qed.
Lemma normal_no_err t l sc k q : normal C t l sc k q -> ~ err_top k.
Proof.
  intros N X. pose proof (n_top _ _ _ _ _ _ N) as TO. destruct k as [|o k]; [exact X|]. cbn [err_top] in X. destruct o; cbn [err_op] in X; try exact X.
  - exact TO.
  - destruct X as [X Y]. apply Y, TO, X.
  - exact (X TO).
Qed.
Theorem reach_phase s k : reach C remote (s, k) -> exists q, rep (T s) q /\ phase s k q /\ once (tr s).
Proof.
  intros H. remember (s, k) as c eqn:Ec. revert s k Ec. induction H as [g L1 L2 L3 L4|c x c' Hr IH En Cd St]; intros s k Ec.
  - injection Ec as <- <-. exists []. split; [split; [constructor|reflexivity]|]. split; [|exact I]. right. split; [intros []|]. split; try exact I; try congruence; try discriminate. intros [].
  - subst c'. destruct c as [s0 k0]. destruct (IH _ _ eq_refl) as (q & RP & PH & ON). clear IH.
    pose proof (reach_step C remote _ _ _ Hr En Cd St) as Hr'. pose proof (remote_proper _ _ Hr) as Pr. pose proof (remote_proper _ _ Hr') as Pr'.
    pose proof (proper_inv _ _ Pr) as IV. pose proof (proper_inv _ _ Pr') as IV'. destruct (remote_self _ _ Hr) as (TI & SC & LC). destruct (reach_out C HC _ _ Pr) as (q0 & B & V). assert (q0 = q) as -> by (eapply rep_fun; [apply (b_rep _ _ _ _ B)|exact RP]).
    pose proof (history C _ _ _ Hr) as (HP & _). destruct Cd as [Cd NC]. unfold phase in PH.
    destruct (cbe s0) eqn:CB0.
    + (* after the error *)
      assert (CB : cbe s = true). { destruct (step_grow C _ _ _ _ _ St) as [G | (? & ? & ? & ? & ? & _ & _ & _ & X & _)]; [destruct (G HP) as (_ & _ & E & _); congruence|exact X]. }
      assert (FIN : (exists q', rep (T s) q' /\ late s k q') /\ once (tr s) -> exists q, rep (T s) q /\ phase s k q /\ once (tr s)) by (intros [(q' & A1 & A2) A3]; exists q'; unfold phase; rewrite CB; auto).
      apply FIN. clear FIN.
      destruct x as [ch|a ch|f ch|err|err]; cbn [enabled] in En; cbn [step] in St.
      * destruct En as [KN CH]. destruct k0 as [|o k1]; [congruence|]. unfold lift in St. binv St. destruct a as [s1 os]. injection St as -> <-. cbn [fst snd] in *. eapply (late_op s0 o k1 q ch); try eassumption.
        intros ->. destruct V as [(top & c & r & k' & V & TP)|[V1 V2]].
        { exfalso. destruct TP as [-> | (o & -> & AO)]; cbn [app] in V; [discriminate V|injection V as <- _; exact AO]. }
        pose proof (b_usr _ _ _ _ B) as U. rewrite V1 in U. rewrite (soft_qusers _ _ V2) in U. cbn in U. rewrite app_nil_r in U. symmetry. exact U.
      * destruct Cd as [Cd _]. cbn [fst] in Cd. pose proof (failed_over C _ _ _ Hr CB0). congruence.
      * destruct En as (KT & HK & _ & CH & rq & RD & FO). rewrite RD in St. unfold lift in St. binv St. destruct a as [s1 os]. injection St as -> <-. cbn [fst snd] in *. eapply (late_fire s0 k0 q rq f ch); try eassumption.
        destruct (i_mask _ _ _ IV) as (? & ? & _); split; assumption.
      * destruct En as (-> & HK & IF). unfold lift in St. cbn [obind fst snd app] in St. injection St as <- <-. split; [|exact ON]. apply late_written with (q := q); assumption.
      * destruct En as (_ & X & _). congruence.
    + pose proof (reach_closing C HC _ _ Pr CB0) as [TD G].
      destruct PH as [[ER (o & k1 & -> & EO & LO & HZ)]|[NE P]].
      * (* an error is about to be reported *)
        destruct x as [ch|a ch|f ch|err|err]; cbn [enabled] in En.
        -- cbn [step] in St. unfold lift in St. binv St. destruct a as [s1 os]. injection St as -> <-. cbn [fst snd] in *. exists q.
           destruct o; try (destruct EO; fail); cbn [run_op] in E.
           ++ rewrite CB0 in E. injection E as <- <-. split; [exact RP|]. split; [|apply (once_more [EvError err reason]); [repeat constructor|exact HZ|exact ON]].
              unfold phase. cbn [cbe log set_cbe app]. eapply (lt_abort _ _ _ []); [reflexivity|left; reflexivity|apply (low_T s0); [exact LO|reflexivity|reflexivity]|exact HZ].
           ++ destruct EO as [-> EO]. injection E as <- <-. split; [exact RP|]. split; [|exact ON]. unfold phase. rewrite CB0. left. cbn [app]. split; [exact EO|]. do 2 eexists. split; [reflexivity|]. auto.
           ++ cbn [err_op] in EO. destruct (Z.eqb_spec err CIO_SUCCESS) as [X|X]; [congruence|]. injection E as <- <-. split; [exact RP|]. split; [|exact ON]. unfold phase. rewrite CB0. left. cbn [app]. split; [exact I|]. do 2 eexists. split; [reflexivity|]. split; [exact I|auto].
        -- destruct En as ([UC | [k'' UC]] & _); [discriminate|]. injection UC as -> _. destruct EO.
        -- destruct En as ([UC | [k'' UC]] & _); [discriminate|]. injection UC as -> _. destruct EO.
        -- destruct En as (X & _). discriminate.
        -- destruct En as (X & _). discriminate.
      * destruct V as [N|[(o & k' & -> & EO) _]]; [|destruct NE; exact EO]. destruct G as [G|Z]; [destruct (NE G)|].
        assert (CB : cbe s = false). { destruct (step_grow C _ _ _ _ _ St) as [G | (? & ? & ? & ? & k1 & _ & -> & _)]; [destruct (G HP) as (_ & _ & E & _); congruence|destruct NE; exact I]. }
        assert (FIN : (err_top k -> exists q', rep (T s) q' /\ failing s k q') /\ (forall q', normal C (T s) (tr s) (selfc s) k q' -> closing s k -> rep (T s) q' -> pre s k q') -> exists q, rep (T s) q /\ phase s k q /\ once (tr s)).
        { intros [F1 F2]. pose proof (once_start _ _ Hr' CB) as ON'. destruct (reach_closing C HC _ _ Pr' CB) as [_ G']. destruct (reach_out C HC _ _ Pr') as (q' & B' & V'). rewrite CB in V'.
          assert (D : err_top k \/ normal C (T s) (tr s) (selfc s) k q' /\ closing s k). { destruct G' as [G'|G']; [left; exact G'|]. destruct V' as [V'|[(o & k' & -> & EO) _]]; [right; auto|left; exact EO]. }
          unfold phase. rewrite CB. destruct D as [D|[N' Z']]; [destruct (F1 D) as (q1 & A1 & A2); exists q1; auto|].
          exists q'. split; [apply B'|]. split; [|exact ON']. right. split; [eapply normal_no_err, N'|]. apply F2; [exact N'|exact Z'|apply B']. }
        apply FIN. clear FIN.
        destruct x as [ch|a ch|f ch|err|err]; cbn [enabled] in En; cbn [step] in St.
        -- destruct En as [KN CH]. destruct k0 as [|o k1]; [congruence|]. unfold lift in St. binv St. destruct a as [s1 os]. injection St as -> <-. cbn [fst snd] in *. eapply (early_op s0 o k1 q ch); try eassumption. apply HP.
        -- destruct En as (UC & _ & _ & _). unfold lift in St. binv St. destruct a0 as [s1 os]. injection St as -> <-. cbn [fst snd] in *. eapply (early_call s0 a ch _ _ k0 q); eassumption.
        -- destruct En as (KT & HK & _ & CH & rq & RD & FO). rewrite RD in St. unfold lift in St. binv St. destruct a as [s1 os]. injection St as -> <-. cbn [fst snd] in *. eapply (early_fire s0 k0 q rq f ch); eassumption.
        -- destruct En as (-> & _ & _). unfold lift in St. cbn [obind fst snd app] in St. injection St as <- <-. split; [intros []|]. intros q' _ _ R'. destruct P as [p1 p2 p3 p4].
           assert (q' = q) as ->. { eapply rep_fun; [|exact RP]. apply (rep_ext (set_bs (T s0) (pred (inflight (T s0))) (bswh (T s0)))); try reflexivity. exact R'. }
           split; [exact p1| |exact I|intros [X|[]]; discriminate X]. intros A. split; [apply (p2 A)|exact I].
        -- destruct En as (_ & X & _). congruence.
Qed.
End S.
