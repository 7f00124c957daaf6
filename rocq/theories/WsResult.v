(** What the handlers of writes are told (C56). *)
From Verif Require Import Base Utf8Model MaskModel MaskSpec EndianModel EndianSpec EndianProofs
  WsModel WsFrame WsSendProofs WsRecvSpec WsFrameSpec WsSend WsHistory WsTrace WsExec WsRecvProofs WsRecvReach WsClean WsRecvProps WsRecvProps2
  WsQueue WsOutSpec WsArrive WsWire WsOut WsOutStep WsOutReach WsOutProps.
Open Scope N_scope.
Set Warnings "-unused-intro-pattern".

(** ** Which steps call handlers of messages and pings *)
Definition no_done (e : ev) : Prop := match e with EvWriteDone n _ _ _ => mp n = false | _ => True end.
Lemma no_done_dones es l : Forall no_done es -> dones (es ++ l) = dones l.
Proof. intros H. unfold dones. rewrite collect_app. replace (collect done_of es) with (@nil (jname * nat)); [apply app_nil_r|]. induction H as [|e es He Hes IH]; [reflexivity|]. cbn. rewrite <- IH. destruct e; try reflexivity. cbn in *. rewrite He. reflexivity. Qed.

Section R.
Variable C : cfg.
Hypothesis HC : cfg_ok C.

Definition plain (s s' : ws) : Prop := exists es, tr s' = es ++ tr s /\ Forall no_done es.
Lemma plain_same s s' : tr s' = tr s -> plain s s'.
Proof. intros E. exists []. auto. Qed.
Lemma plain_one s s' e : tr s' = e :: tr s -> no_done e -> plain s s'.
Proof. intros E N. exists [e]. auto. Qed.
Lemma plain_trans a b c : plain a b -> plain b c -> plain a c.
Proof. intros (e1 & A1 & A2) (e2 & B1 & B2). exists (e2 ++ e1). rewrite B1, A1, app_assoc. split; [reflexivity|apply Forall_app; auto]. Qed.
Lemma enq_plain s n len ch kerr s' os : enqueue_job C s n len ch kerr = Ret (s', os) -> plain s s'.
Proof. intros H. apply enqueue_frame in H. destruct H as (_ & TR & _). destruct TR as [TR|(c & TR)]; [apply plain_same, TR|eapply plain_one; [exact TR|exact I]]. Qed.
Lemma read_plain s cb most n msg s' os : bs_read C s cb most n msg = (s', os) -> plain s s'.
Proof. unfold bs_read. destruct (_ && _)%bool; intros H; injection H as <- <-; apply plain_same; reflexivity. Qed.
Lemma ret_inj {A} (a b : A) : Ret a = Ret b -> a = b. Proof. intros H. injection H. auto. Qed.

Lemma op_plain s o ch s' os : run_op C s o ch = Ret (s', os) ->
  plain s s' \/ exists n id e c, tr s' = EvWriteDone n id e c :: tr s /\ o = OHandler n (Some (HUser id)) e c /\ mp n = true.
Proof.
  intros H. destruct o; cbn [run_op] in H; try (left; injection H as <- <-; apply plain_same; reflexivity).
  - left. destruct (cbe s); injection H as <- <-; [apply plain_same; reflexivity|eapply plain_one; [reflexivity|exact I]].
  - left. destruct (dequeue_job (T s)) as [[n|] t]; injection H as <- <-; apply plain_same; reflexivity.
  - left. eapply plain_trans; [|eapply enq_plain, H]. eapply plain_one; [reflexivity|exact I].
  - left. destruct (hasrh s); injection H as <- <-; [eapply plain_one; [reflexivity|exact I]|apply plain_same; reflexivity].
  - left. injection H as <- <-. eapply plain_one; [reflexivity|exact I].
  - left. binv H. destruct a as [[t n] c]. destruct sh; [destruct (jhandler _); [|discriminate]|..]; injection H as <- <-; apply plain_same; reflexivity.
  - unfold call_handler in H. destruct h as [[id|]|]; injection H as <- <-; try (left; apply plain_same; reflexivity).
    destruct (mp n) eqn:M; [right; exists n, id, err, c; auto|left; eapply plain_one; [reflexivity|exact M]].
  - left. unfold call_handler in H. destruct (jhandler _) as [[id|]|]; injection H as <- <-; first [apply plain_same; reflexivity|eapply plain_one; [reflexivity|reflexivity]].
  - left. destruct j as [n|]; [|injection H as <- <-; apply plain_same; reflexivity]. destruct (jwbh (jobs (T s) n)); [|discriminate]. binv H. destruct a as [s1 r]. cbn [fst snd] in H.
    apply send_frame_frame in E. destruct E as (_ & (c' & _ & TR & _) & _). assert (s1 = s') as -> by (destruct r; injection H; auto). eapply plain_one; [exact TR|exact I].
  - left. destruct (negb _); [injection H as <- <-; apply plain_same; reflexivity|]. apply ret_inj in H. eapply read_plain, H.
  - left. injection H as <- <-. eapply plain_one; [reflexivity|exact I].
Qed.
Lemma call_plain s a ch s' os : call C s a ch = Ret (s', os) -> plain s s'.
Proof.
  intros H. unfold call, refuse in H.
  assert (R1 : forall e e', no_done e -> no_done e' -> tr s' = e' :: e :: tr s -> plain s s') by (intros e e' A B E; exists [e'; e]; auto).
  assert (Q : forall s1, plain s s1 -> plain s1 s' -> plain s s') by (intros; eapply plain_trans; eassumption).
  assert (TW : forall s1 e e', tr s1 = e' :: e :: tr s -> no_done e -> no_done e' -> plain s1 s' -> plain s s') by (intros s1 e e' E A B P; apply (Q s1); [exists [e'; e]; auto|exact P]).
  destruct a as [|id flen p lf bin|id p|id p|id p|id code reason].
  - destruct (_ =? 0); apply ret_inj in H; (eapply Q; [|eapply read_plain, H]); eapply plain_one; try reflexivity; exact I.
  - destruct id as [id|]; [|injection H as <- <-; eapply R1; [| |reflexivity]; exact I]. destruct (jwbh _); [injection H as <- <-; eapply R1; [| |reflexivity]; exact I|].
    destruct (if fragw _ then _ else _) as [kind fw]. apply enq_plain in H. refine (TW _ _ _ _ _ _ H); [reflexivity|exact I|exact I].
  - apply enq_plain in H. refine (TW _ _ _ _ _ _ H); [reflexivity|exact I|exact I].
  - unfold write_ping_or_pong, refuse in H. destruct id as [id|]; [|injection H as <- <-; eapply R1; [| |reflexivity]; exact I]. destruct (negb _); [injection H as <- <-; eapply R1; [| |reflexivity]; exact I|].
    destruct (jwbh _); [injection H as <- <-; eapply R1; [| |reflexivity]; exact I|]. destruct p; [|discriminate]. apply enq_plain in H. refine (TW _ _ _ _ _ _ H); [reflexivity|exact I|exact I].
  - unfold write_ping_or_pong, refuse in H. destruct id as [id|]; [|injection H as <- <-; eapply R1; [| |reflexivity]; exact I]. destruct (negb _); [injection H as <- <-; eapply R1; [| |reflexivity]; exact I|].
    destruct (jwbh _); [injection H as <- <-; eapply R1; [| |reflexivity]; exact I|]. destruct p; [|discriminate]. apply enq_plain in H. refine (TW _ _ _ _ _ _ H); [reflexivity|exact I|exact I].
  - destruct id as [id|]; [|injection H as <- <-; eapply R1; [| |reflexivity]; exact I]. destruct (jwbh _); [injection H as <- <-; eapply R1; [| |reflexivity]; exact I|].
    destruct (negb _); [injection H as <- <-; eapply R1; [| |reflexivity]; exact I|]. destruct (negb _); [injection H as <- <-; eapply R1; [| |reflexivity]; exact I|].
    apply enq_plain in H. refine (TW _ _ _ _ _ _ H); [reflexivity|exact I|exact I].
Qed.
Lemma fire_plain s rq f ch s' os : rx_ok s -> fire_ok rq f -> fire C s rq f ch = Ret (s', os) ->
  plain s s' /\ (forall n h e c, ~ In (OHandler n h e c) os).
Proof.
  intros RX FO H. destruct (fire_arrival C HC s rq f ch s' os RX FO H) as (os1 & -> & AR).
  assert (EN : forall s0 n len s1 o1, enqueue_job C s0 n len ch (fun _ => []) = Ret (s1, o1) -> forall m h e c, ~ In (OHandler m h e c) (o1 ++ [OBsReturn])).
  { intros s0 n len s1 o1 E m h e c X. apply enqueue_frame in E. destruct E as (_ & _ & _ & _ & OS). apply in_app_or in X. destruct X as [X|[X|[]]]; [|discriminate X].
    destruct OS as [-> | [(sh & e' & ->) | (e' & msg & ->)]]; [destruct X|destruct X as [X|[]]; discriminate X|destruct X as [X|[]]; discriminate X]. }
  destruct AR as [es Y X2 F _ RO|s1 data Y X2 _ X3|s1 addr data Y X2 BD X3].
  - split.
    + exists es. split; [exact X2|]. eapply Forall_impl; [|exact F]. intros e. destruct e; try (intros []; fail); try (intros; exact I).
    + intros n h e c X. apply in_app_or in X. destruct X as [X|[X|[]]]; [|discriminate X]. rewrite Forall_forall in RO. exact (RO _ X).
  - unfold handle_ping_frame in X3. destruct (Nat.ltb 125 (length data)); [discriminate|]. split; [|eapply EN, X3]. apply enq_plain in X3. eapply plain_trans; [|exact X3]. eexists [_; _]. split; [cbn; rewrite X2; reflexivity|repeat constructor].
  - unfold handle_close_frame in X3. binv X3. destruct a as [ccode rs|st n].
    { injection X3 as <- <-. split; [exists []; auto|]. intros ? ? ? ? [X|[X|[]]]; discriminate X. }
    cbn [log selfc] in X3. destruct (selfc s1).
    { injection X3 as <- <-. split; [eexists [_]; split; [cbn; rewrite X2; reflexivity|repeat constructor]|]. intros ? ? ? ? [X|[X|[]]]; discriminate X. }
    split; [|eapply EN, X3]. apply enq_plain in X3. eapply plain_trans; [|exact X3]. eexists [_; _]. split; [cbn; rewrite X2; reflexivity|repeat constructor].
Qed.

(** ** After a failure *)
Definition failed_ev (l : list ev) : bool := existsb is_error l.
Definition abort_told (l : list ev) : Prop :=
  forall l1 n id e c l2, l = l1 ++ EvWriteDone n id e c :: l2 -> mp n = true -> failed_ev l2 = true -> e = CIO_OPERATION_ABORTED.
Lemma told_plain es l : Forall no_done es -> abort_told l -> abort_told (es ++ l).
Proof.
  intros F A. induction F as [|e es He _ IH]; [exact A|]. intros l1 n id er c l2 E M B. destruct l1 as [|e1 l1]; cbn in E; injection E as -> E; [cbn in He; congruence|exact (IH _ _ _ _ _ _ E M B)].
Qed.
Lemma told_one n id e c l : abort_told l -> (failed_ev l = true -> e = CIO_OPERATION_ABORTED) -> abort_told (EvWriteDone n id e c :: l).
Proof.
  intros A X l1 n' id' e' c' l2 E M B. destruct l1 as [|e1 l1]; cbn in E; [injection E; clear E; intros; subst; apply X, B|injection E; clear E; intros E2 E1]. exact (A _ _ _ _ _ _ E2 M B).
Qed.
Definition told_ops (k : list op) : Prop := forall n id e c, In (OHandler n (Some (HUser id)) e c) k -> mp n = true -> e = CIO_OPERATION_ABORTED.
Lemma pend_none k n id e c : pend k = [] -> In (OHandler n (Some (HUser id)) e c) k -> mp n = true -> False.
Proof.
  intros P X M. unfold pend in P. assert (Y : In (n, id) (flat_map op_usr k)) by (apply in_flat_map; eexists; split; [exact X|]; cbn; rewrite M; left; reflexivity). rewrite P in Y. exact Y.
Qed.

(** New pending handler calls come from aborting, or from a completed write. *)
Lemma op_handlers s o ch s' os n h e c : run_op C s o ch = Ret (s', os) -> In (OHandler n h e c) os ->
  (o = OAbort /\ e = CIO_OPERATION_ABORTED) \/ exists sh, o = OStream sh e /\ exists t, dequeue_job (T s) = (Some n, t).
Proof.
  intros H X.
  assert (EN : forall s0 m len kerr, enqueue_job C s0 m len ch kerr = Ret (s', os) -> (forall e0, ~ In (OHandler n h e c) (kerr e0)) -> False).
  { intros s0 m len kerr E K. apply enqueue_frame in E. destruct E as (_ & _ & _ & _ & OS).
    destruct OS as [-> | [(sh & e' & ->) | (e' & msg & ->)]]; [destruct X|destruct X as [X|[]]; discriminate X|destruct X as [X|X]; [discriminate X|exact (K _ X)]]. }
  destruct o; cbn [run_op] in H; try (injection H as <- <-; cbn in X; decompose [or] X; try contradiction; discriminate).
  - destruct (cbe s); injection H as <- <-; cbn in X; decompose [or] X; try contradiction; discriminate.
  - left. split; [reflexivity|]. destruct (dequeue_job (T s)) as [[m|] t]; injection H as <- <-; cbn in X; decompose [or] X; try contradiction; try discriminate. injection H as _ _ <- _. reflexivity.
  - exfalso. eapply EN; [exact H|]. intros e0 [Y|[]]. discriminate Y.
  - destruct (hasrh s); injection H as <- <-; cbn in X; decompose [or] X; try contradiction; discriminate.
  - right. exists sh. binv H. destruct a as [[t m] c0]. unfold write_jobs_popfront in E. destruct (dequeue_job (T s)) as [[m0|] t1] eqn:DQ; [|discriminate].
    destruct (jwbh (jobs t1 m0)); [|discriminate]. injection E as <- <- <-.
    destruct sh; [destruct (jhandler _); [|discriminate]|..]; injection H as <- <-; cbn in X; unfold close_handler in X; decompose [or] X; try contradiction; try discriminate;
      try (destruct m0; try discriminate); match goal with H : OHandler _ _ _ _ = OHandler _ _ _ _ |- _ => injection H as H1 H2 H3 H4; subst end; (split; [reflexivity|exists t1; reflexivity]).
  - unfold call_handler in H. destruct h0 as [[id|]|]; injection H as <- <-; cbn in X; decompose [or] X; try contradiction; discriminate.
  - unfold call_handler in H. destruct (jhandler _) as [[id|]|]; injection H as <- <-; cbn in X; decompose [or] X; try contradiction; discriminate.
  - destruct j as [m|]; [|injection H as <- <-; destruct X]. destruct (jwbh (jobs (T s) m)); [|discriminate]. binv H. destruct a as [s1 r]. cbn [fst snd] in H.
    destruct r; injection H as <- <-; cbn in X; decompose [or] X; try contradiction; discriminate.
  - destruct (negb _); [injection H as <- <-; cbn in X; decompose [or] X; try contradiction; discriminate|]. unfold bs_read in H. destruct (_ && _)%bool; injection H as <- <-; cbn in X; [decompose [or] X; try contradiction; discriminate|].
    destruct (Nat.eqb _ _); cbn in X; decompose [or] X; try contradiction; discriminate.
Qed.

Lemma error_cbe P s k : reach C P (s, k) -> cbe s = false -> failed_ev (tr s) = false.
Proof.
  intros H CB. destruct (failed_ev (tr s)) eqn:F; [|reflexivity]. unfold failed_ev in F. apply existsb_exists in F. destruct F as (e & X & Y). destruct e; try discriminate Y. rewrite (reported_failed C _ _ _ _ _ H X) in CB. discriminate.
Qed.

Theorem reach_told s k : reach C proper (s, k) -> abort_told (tr s) /\ (cbe s = true -> told_ops k).
Proof.
  intros H. remember (s, k) as c eqn:Ec. revert s k Ec. induction H as [g L1 L2 L3 L4|c x c' Hr IH En Cd St]; intros s k Ec.
  - injection Ec as <- <-. split; [intros [|] ? ? ? ? ? E; discriminate E|discriminate].
  - subst c'. destruct c as [s0 k0]. destruct (IH _ _ eq_refl) as [A O].
    assert (IV : WsRecvProofs.inv C s0 k0) by (eapply reach_inv; [exact HC|]; eapply reach_mono; [|exact Hr]; intros; apply proper_reads; assumption).
    destruct (reach_out C HC _ _ Hr) as (q & B & V). pose proof (history C _ _ _ Hr) as (HP & _).
    assert (CBK : cbe s = true -> cbe s0 = true \/ exists err code reason k1, k0 = OHandleError err code reason :: k1 /\ cbe s0 = false /\ exists ch, x = XOp ch).
    { intros CB. destruct (step_grow C _ _ _ _ _ St) as [G | (ch & err & code & reason & k1 & X & X0 & X1 & _)]; [left; destruct (G HP) as (_ & _ & E & _); congruence|right; exists err, code, reason, k1; eauto]. }
    destruct x as [ch|a ch|f ch|err|err]; cbn [step enabled] in *.
    + destruct k0 as [|o k0]; [destruct En as [X _]; congruence|]. unfold lift in St. binv St. destruct a as [s1 os]. injection St as -> <-. cbn [fst snd] in *. split.
      * destruct (op_plain _ _ _ _ _ E) as [(es & -> & F)|(n & id & e & c & -> & -> & M)]; [apply told_plain; assumption|]. apply told_one; [exact A|]. intros FE.
        destruct (cbe s0) eqn:CB; [apply (O eq_refl n id e c); [left; reflexivity|exact M]|]. rewrite (error_cbe _ _ _ Hr CB) in FE. discriminate.
      * intros CB. destruct (CBK CB) as [CB0|(err & code & reason & k1 & EK & CB0 & _)].
        -- rewrite CB0 in V. specialize (O CB0). intros n id e c X M. apply in_app_or in X. destruct X as [X|X]; [|apply (O n id e c); [right; exact X|exact M]].
           destruct (op_handlers _ _ _ _ _ _ _ _ _ E X) as [[_ Y]|(sh & -> & t & DQ)]; [exact Y|exfalso].
           destruct V as [(top & c1 & r1 & k' & EK & TP)|[_ AF]].
           { destruct TP as [-> | (o' & -> & AO)]; [discriminate EK|]. cbn [app] in EK. injection EK as <- _. exact AO. }
           destruct q as [|m q]; [rewrite rep_pop_nil in DQ by apply B; discriminate|]. destruct (rep_pop _ _ _ (b_rep _ _ _ _ B)) as [DQ' _]. rewrite DQ' in DQ. injection DQ as -> _. inversion AF; congruence.
        -- injection EK as -> ->. cbn [run_op] in E. rewrite CB0 in E. injection E as <- <-. intros n id e c X M. exfalso. pose proof (b_top _ _ _ _ B) as PT. cbn [tl] in PT.
           destruct X as [X|[X|X]]; try discriminate X. eapply pend_none; eassumption.
    + unfold lift in St. binv St. destruct a0 as [s1 os]. injection St as -> <-. cbn [fst snd] in *. destruct (call_plain _ _ _ _ _ E) as (es & ET & F). split; [rewrite ET; apply told_plain; assumption|].
      intros CB. exfalso. destruct (CBK CB) as [CB0|(err & code & reason & k1 & _ & _ & ch' & X)]; [|discriminate X].
      destruct Cd as [Cd _]. cbn [fst] in Cd. rewrite (failed_over C _ _ _ Hr CB0) in Cd. discriminate.
    + destruct En as (_ & _ & _ & _ & rq & RD & FO). rewrite RD in St. unfold lift in St. binv St. destruct a as [s1 os]. injection St as -> <-. cbn [fst snd] in *.
      assert (RX : rx_ok s0) by (destruct (i_mask _ _ _ IV) as (? & ? & _); split; assumption).
      destruct (fire_plain _ _ _ _ _ _ RX FO E) as [(es & ET & F) NH]. split; [rewrite ET; apply told_plain; assumption|]. intros CB n id e c X M. apply in_app_or in X. destruct X as [X|X]; [destruct (NH _ _ _ _ X)|].
      destruct (CBK CB) as [CB0|(err & code & reason & k1 & _ & _ & ch' & Y)]; [|discriminate Y]. exact (O CB0 n id e c X M).
    + destruct En as (-> & _). injection St as <- <-. split; [exact A|]. intros CB n id e c [X|[]]. discriminate X.
    + destruct En as (-> & _). injection St as <- <-. split; [exact A|]. intros CB n id e c [X|[]]. discriminate X.
Qed.

(** ** Before: handlers are called for what was sent *)
Definition sent_users (l : list ev) : list (jname * nat) := musers (firstn (length (sends l)) (accepts l)).
Definition after_send (l : list ev) : Prop := exists rest, sent_users l = dones l ++ rest.
Lemma firstn_more {A} n m (a b : list A) : (n <= m)%nat -> exists r, firstn m (a ++ b) = firstn n a ++ r.
Proof.
  revert m a. induction n as [|n IH]; intros m a L; [eexists; reflexivity|]. destruct m as [|m]; [lia|]. destruct a as [|x a]; [eexists; reflexivity|].
  destruct (IH m a) as [r E]; [lia|]. exists r. cbn. rewrite E. reflexivity.
Qed.
Lemma send_plain es l : Forall no_done es -> after_send l -> after_send (es ++ l).
Proof.
  intros F [rest E]. unfold after_send, sent_users. rewrite (no_done_dones _ _ F). unfold sends, accepts. rewrite !collect_app, app_length.
  destruct (firstn_more (length (collect send_of l)) (length (collect send_of l) + length (collect send_of es)) (collect acc_of l) (collect acc_of es)) as [r X]; [lia|]. rewrite X.
  unfold musers. rewrite flat_map_app. fold musers. unfold sent_users, musers, sends, accepts in E. rewrite E. rewrite <- app_assoc. eexists. reflexivity.
Qed.
Lemma carried_length m0 es ss m : carried C m0 es ss m -> length es = length ss.
Proof. intros H. induction H as [|es ss m n j len L c m' H IH HL W]; [reflexivity|]. rewrite !app_length, IH. reflexivity. Qed.

Theorem reach_after_send s k : reach C proper (s, k) -> cbe s = false -> after_send (tr s).
Proof.
  intros H. remember (s, k) as c eqn:Ec. revert s k Ec. induction H as [g L1 L2 L3 L4|c x c' Hr IH En Cd St]; intros s k Ec CB.
  - injection Ec as <- <-. exists []. reflexivity.
  - subst c'. destruct c as [s0 k0]. pose proof (history C _ _ _ Hr) as (HP & _).
    assert (CB0 : cbe s0 = false). { destruct (step_grow C _ _ _ _ _ St) as [G | (? & ? & ? & ? & ? & _ & _ & _ & X & _)]; [destruct (G HP) as (_ & _ & E & _); congruence|congruence]. }
    pose proof (IH _ _ eq_refl CB0) as A.
    assert (IV : WsRecvProofs.inv C s0 k0) by (eapply reach_inv; [exact HC|]; eapply reach_mono; [|exact Hr]; intros; apply proper_reads; assumption).
    destruct (reach_out C HC _ _ Hr) as (q & B & V). rewrite CB0 in V.
    destruct x as [ch|a ch|f ch|err|err]; cbn [step enabled] in *.
    + destruct k0 as [|o k0]; [destruct En as [X _]; congruence|]. unfold lift in St. binv St. destruct a as [s1 os]. injection St as -> <-. cbn [fst snd] in *.
      destruct (op_plain _ _ _ _ _ E) as [(es & -> & F)|(n & id & e & c & ET & -> & M)]; [apply send_plain; assumption|].
      destruct V as [V|[(o & k' & EK & EO) _]]; [|injection EK as <- _; destruct EO as [X _]; discriminate X].
      destruct (n_wires _ _ _ _ _ _ V) as (m0 & D & Q & w1 & w2 & w3 & w4 & w5).
      pose proof (popped_users C _ _ _ _ _ B (n_wires _ _ _ _ _ _ V) D Q w1 w2 w5) as U.
      unfold after_send, sent_users. rewrite ET. unfold sends, accepts, dones in *. cbn [collect send_of acc_of done_of]. rewrite !app_nil_r, M.
      rewrite <- (carried_length _ _ _ _ w3), w1. rewrite app_length, firstn_app, firstn_all2 by lia. unfold musers in *. rewrite flat_map_app, U. cbn [pend flat_map op_usr]. rewrite M. cbn [usr app].
      pose proof (b_top _ _ _ _ B) as BT. cbn [tl] in BT. unfold pend in BT. rewrite BT. cbn [app]. eexists. reflexivity.
    + unfold lift in St. binv St. destruct a0 as [s1 os]. injection St as -> <-. cbn [fst snd] in *. destruct (call_plain _ _ _ _ _ E) as (es & ET & F). rewrite ET; apply send_plain; assumption.
    + destruct En as (_ & _ & _ & _ & rq & RD & FO). rewrite RD in St. unfold lift in St. binv St. destruct a as [s1 os]. injection St as -> <-. cbn [fst snd] in *.
      assert (RX : rx_ok s0) by (destruct (i_mask _ _ _ IV) as (? & ? & _); split; assumption).
      destruct (fire_plain _ _ _ _ _ _ RX FO E) as [(es & ET & F) _]. rewrite ET; apply send_plain; assumption.
    + destruct En as (-> & _). injection St as <- <-. exact A.
    + destruct En as (-> & _). injection St as <- <-. exact A.
Qed.

(** ** The completion of a write *)
Lemma written_reported s : reach C proper (s, []) -> cbe s = false -> inflight (T s) = 1%nat ->
  exists D a Q, accepts (tr s) = D ++ a :: Q /\ length (sends (tr s)) = S (length D) /\ dones (tr s) = musers D /\
  forall n id err ch1 ch2, ent_usr a = [(n, id)] -> exists s1 k1 s2 k2 s3 k3 c,
    step C (s, []) (XWritten err) = Ret (s1, k1) /\ step C (s1, k1) (XOp ch1) = Ret (s2, k2) /\ step C (s2, k2) (XOp ch2) = Ret (s3, k3) /\
    tr s3 = EvWriteDone n id err c :: tr s.
Proof.
  intros H CB IF. destruct (reach_out C HC _ _ H) as (q & B & V). rewrite CB in V. destruct V as [V|[(o & k' & X & _) _]]; [|discriminate X].
  pose proof (tok_in C _ _ _ _ _ V I) as TK. cbn in TK. destruct q as [|m q]; [cbn [one] in TK; lia|].
  destruct (n_wires _ _ _ _ _ _ V) as (m0 & D & Q & w1 & w2 & w3 & w4 & w5). pose proof (popped_users C _ _ _ _ _ B (n_wires _ _ _ _ _ _ V) D Q w1 w2 w5) as U.
  destruct Q as [|a Q]; [discriminate w2|]. cbn [map] in w2. injection w2 as w2 w2'. exists D, a, Q. split; [exact w1|].
  pose proof (carried_length _ _ _ _ w3) as CL. unfold hs in CL. rewrite IF in CL. cbn [nstream filter length Nat.add firstn] in CL. rewrite app_length in CL. cbn [length] in CL.
  split; [lia|]. split; [rewrite U; cbn; rewrite app_nil_r; reflexivity|].
  intros n id err ch1 ch2 EU. inversion w5 as [|? ? W5 _]; subst.
  assert (NN : ent_name a = n /\ mp n = true /\ jhandler (jobs (T s) n) = Some (HUser id)).
  { unfold ent_usr in EU. destruct (mp (ent_name a)) eqn:M; [|discriminate]. rewrite <- W5 in EU. unfold usr in EU. destruct (jhandler _) as [[i|]|] eqn:J; try discriminate EU. injection EU as E1 E2. subst. auto. }
  destruct NN as (NN & M & JH). rewrite NN in *. clear EU w4 W5 w5 U.
  pose proof (n_sh _ _ _ _ _ _ V) as [SH _]. assert (IF' : (0 < inflight (T s))%nat) by lia. specialize (SH IF'). pose proof (n_ready _ _ _ _ _ _ V n (or_introl eq_refl)) as [WB RD].
  assert (SM : bswh (T s) = SHMessage) by (rewrite SH; destruct n; try discriminate M; apply RD).
  destruct (jwbh (jobs (T s) n)) as [c|] eqn:W; [|congruence].
  set (s1 := set_T s (set_bs (T s) (pred (inflight (T s))) (bswh (T s)))).
  assert (RP : rep (T s1) (n :: map ent_name Q)) by (apply (rep_ext (T s)); try reflexivity; apply B).
  assert (W1 : jwbh (jobs (T s1) n) = Some c) by exact W.
  set (t2 := popped (T s1) n (map ent_name Q)).
  assert (S2 : step C (s1, [OStream SHMessage err]) (XOp ch1) = Ret (set_T s1 t2, [OHandler n (Some (HUser id)) err (tl c); OMsgNext (first t2)])).
  { cbn [step run_op]. rewrite (pop_form _ _ _ _ RP W1). cbn [obind]. fold (popped (T s1) n (map ent_name Q)). fold t2. assert (jhandler (jobs t2 n) = Some (HUser id)) as -> by (unfold t2; rewrite popped_handler; exact JH). reflexivity. }
  exists s1, [OStream SHMessage err], (set_T s1 t2), [OHandler n (Some (HUser id)) err (tl c); OMsgNext (first t2)], (log (set_T s1 t2) (EvWriteDone n id err (tl c))), [OUser; OMsgNext (first t2)], (tl c).
  split; [unfold s1; cbn [step]; rewrite SM; reflexivity|]. split; [exact S2|]. split; reflexivity.
Qed.
End R.

(** ** C56 *)
(** Until an error is reported, the handlers called belong to writes that were handed to the stream: the accepted writes
    split into those that were sent and those that were not, and the handlers called are the first ones of those sent. *)
Theorem C56_handler_called_only_for_sent_write : forall C s k, cfg_ok C -> reach C proper (s, k) -> no_error (tr s) ->
  exists A B rest, accepts (tr s) = A ++ B /\ length A = length (sends (tr s)) /\ musers A = dones (tr s) ++ rest.
Proof.
  intros C s k HC H N. destruct (reach_after_send C HC s k H (no_error_cbe _ _ _ _ H N)) as [rest E]. destruct (inv_weak C HC s k H N) as [(_ & _ & m0 & A & B & m & E2 & W) _].
  exists A, B, rest. split; [exact E2|]. pose proof (carried_length C _ _ _ _ W) as L. split; [exact L|]. unfold sent_users in E. rewrite E2, <- L, firstn_app, firstn_all, Nat.sub_diag in E. cbn [firstn] in E. rewrite app_nil_r in E. exact E.
Qed.
Print Assumptions C56_handler_called_only_for_sent_write.

(** When the stream reports the end of a write, the handler of exactly that write is called with exactly the result the stream reported. *)
Theorem C56_result_is_the_streams : forall C s, cfg_ok C -> reach C proper (s, []) -> no_error (tr s) -> inflight (T s) = 1%nat ->
  exists D a Q, accepts (tr s) = D ++ a :: Q /\ length (sends (tr s)) = S (length D) /\ dones (tr s) = musers D /\
  forall n id err ch1 ch2, ent_usr a = [(n, id)] -> exists s1 k1 s2 k2 s3 k3 c,
    step C (s, []) (XWritten err) = Ret (s1, k1) /\ step C (s1, k1) (XOp ch1) = Ret (s2, k2) /\ step C (s2, k2) (XOp ch2) = Ret (s3, k3) /\
    tr s3 = EvWriteDone n id err c :: tr s.
Proof. intros C s HC H N IF. apply (written_reported C HC s H (no_error_cbe _ _ _ _ H N) IF). Qed.
Print Assumptions C56_result_is_the_streams.

(** After a failure, every handler of a message or ping that is still called is told that the write was aborted. *)
Theorem C56_aborted_after_failure : forall C s k l1 n id err c l2 e r, cfg_ok C -> reach C proper (s, k) ->
  tr s = l1 ++ EvWriteDone n id err c :: l2 -> n = JMsg \/ n = JPing -> In (EvError e r) l2 -> err = CIO_OPERATION_ABORTED.
Proof.
  intros C s k l1 n id err c l2 e r HC H E M X. destruct (reach_told C HC s k H) as [A _]. apply (A _ _ _ _ _ _ E); [destruct M as [-> | ->]; reflexivity|].
  unfold failed_ev. apply existsb_exists. eexists. split; [exact X|reflexivity].
Qed.
Print Assumptions C56_aborted_after_failure.

(** The hypotheses are met: a message is in flight and a ping waits; then the peer violates the protocol and both are aborted. *)
Example in_flight_example : exists s k, reach cli proper (s, k) /\ k = [] /\ no_error (tr s) /\ inflight (T s) = 1%nat /\
  musers (accepts (tr s)) = [(JMsg, 1%nat); (JPing, 2%nat)] /\ dones (tr s) = [].
Proof. go_it cli ([say 1 [72; 105]; ping 2 [1]]). split; [reflexivity|]. split; [not_there|]. repeat split. Qed.
Example aborted_example : exists s k l1 l2 c, reach cli proper (s, k) /\ (exists e r, In (EvError e r) l2) /\ tr s = l1 ++ EvWriteDone JPing 2 CIO_OPERATION_ABORTED c :: l2.
Proof.
  enough (X : exists s k, reach cli proper (s, k) /\ exists l1 l2 c, (exists e r, In (EvError e r) l2) /\ tr s = l1 ++ EvWriteDone JPing 2 CIO_OPERATION_ABORTED c :: l2).
  { destruct X as (s & k & R & l1 & l2 & c & X). exists s, k, l1, l2, c. auto. }
  go_it cli ([readcall; op1; say 1 [72; 105]; ping 2 [1]; arrive [0xF1; 0]] ++ ops 6).
  eexists [], _, _. split; [|cbn; reflexivity]. eexists _, _. cbn. tauto.
Qed.
