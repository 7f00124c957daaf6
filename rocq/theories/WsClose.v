(** The closing handshake (C26): vocabulary and the invariant of all executions. *)
From Verif Require Import Base Utf8Model MaskModel MaskSpec EndianModel EndianSpec EndianProofs
  WsModel WsFrame WsSendProofs WsRecvSpec WsFrameSpec WsSend WsHistory WsTrace WsRecvProofs WsRecvReach WsClean WsRecvProps WsRecvProps2 WsQueue WsOutSpec WsArrive WsWire WsOut WsOutStep WsOutReach.
Open Scope N_scope.
Set Warnings "-unused-intro-pattern".

(** How often the close hook was called; how often a close frame was requested. *)
Definition is_hook (e : ev) : bool := match e with EvHook => true | _ => false end.
Definition hooks (l : list ev) : nat := length (filter is_hook l).
Definition closes (l : list ev) : nat := length (filter close_ev l).
(** The application asked for the close. *)
Definition local_ev (e : ev) : bool := match e with EvCall (AClose _ _ _) => true | _ => false end.
Definition local_close (l : list ev) : bool := existsb local_ev l.
(** Something is delivered to the application as reader. *)
Definition delivery (e : ev) : bool := match e with EvData _ _ _ _ _ | EvControl _ _ | EvEof => true | _ => false end.

(** The history (newest first) is as it should be. *)
Definition tidy_ev (e : ev) (r : list ev) : Prop :=
  match e with
  | EvHook => hooks r = 0%nat /\ (local_close r = false -> dones r = musers (accepts r))
  | EvAccept JClose _ _ => close_asked r = false
  | _ => if delivery e then hooks r = 0%nat else True
  end.
Fixpoint tidy (l : list ev) : Prop := match l with [] => True | e :: r => tidy_ev e r /\ tidy r end.

Definition is_closing (o : op) : bool := match o with OClose | OHook => true | _ => false end.
Definition nclose (k : list op) : nat := length (filter is_closing k).
Lemma nclose_app a b : nclose (a ++ b) = (nclose a + nclose b)%nat.
Proof. unfold nclose. rewrite filter_app, app_length. reflexivity. Qed.
Lemma hooks_app a b : hooks (a ++ b) = (hooks a + hooks b)%nat.
Proof. unfold hooks. rewrite filter_app, app_length. reflexivity. Qed.

(** The answer to the peer's close frame is waiting to be sent, or being sent. *)
Definition cj (t : tx) : bool * stream_handler := (has (jwbh (jobs t JClose)), jsh (jobs t JClose)).
Definition resp (t : tx) : bool := match cj t with (true, SHResponseClose) => true | _ => false end.
Definition err_top (k : list op) : Prop := match k with o :: _ => err_op o | [] => False end.
Definition empty (s : ws) : Prop := first (T s) = None \/ selfc s = true.
Definition shape (s : ws) (k : list op) : Prop :=
  match k with
  | OClose :: _ | OHook :: _ => empty s
  | OUser :: OHook :: _ => over (tr s) = true /\ empty s
  | OAbort :: OClose :: _ => True
  | _ => nclose k = 0%nat
  end.
Record closing (s : ws) (k : list op) : Prop := {
  z_bal : (hooks (tr s) + nclose k + b2n (resp (T s)) + b2n (timer s))%nat = b2n (close_asked (tr s));
  z_self : selfc s = true -> resp (T s) = false /\ close_asked (tr s) = true /\ local_close (tr s) = true;
  z_timer : timer s = true -> selfc s = true;
  z_shape : shape s k;
  z_hooked : hooked s = negb (Nat.eqb (hooks (tr s)) 0);
  z_in : resp (T s) = true -> forall q, rep (T s) q -> In JClose q }.

(** ** The queue is determined by the pointers *)
Lemma links_last_prefix f r : forall a r', links f a r -> links f a r' -> NoDup (a :: r) -> NoDup (a :: r') -> List.last r a = List.last r' a -> r = r'.
Proof.
  induction r as [|b r IH]; intros a r' L L' N N' E.
  - destruct r' as [|c r']; [reflexivity|]. exfalso. inversion N' as [|? ? X _]; subst. apply X. change (List.last [] a) with a in E. rewrite E. rewrite last_cons. apply last_in.
  - destruct r' as [|c r'].
    + exfalso. inversion N as [|? ? X _]; subst. apply X. change (List.last [] a) with a in E. rewrite <- E. rewrite last_cons. apply last_in.
    + destruct L as [L1 L2], L' as [L1' L2']. rewrite L1 in L1'. injection L1' as <-. f_equal. rewrite !last_cons in E. inversion N; inversion N'; subst. apply (IH b); assumption.
Qed.
Lemma rep_fun t q q' : rep t q -> rep t q' -> q = q'.
Proof.
  intros [N H] [N' H']. destruct q as [|a r], q' as [|a' r']; [reflexivity|destruct H' as (H' & _); congruence|destruct H as (H & _); congruence|].
  destruct H as (F & L & E), H' as (F' & L' & E'). rewrite F in F'. injection F' as <-. rewrite E in E'. injection E' as E'.
  f_equal. eapply links_last_prefix; eassumption.
Qed.

Section S.
Variable C : cfg.
Hypothesis HC : cfg_ok C.

Lemma like_cj t t' : (forall m, job_like (jobs t m) (jobs t' m)) -> cj t' = cj t.
Proof.
  intros H. destruct (H JClose) as (_ & _ & _ & _ & E & W). unfold cj. rewrite E. f_equal.
  destruct (jwbh (jobs t JClose)), (jwbh (jobs t' JClose)); try reflexivity; destruct W as [W1 W2]; [discriminate W1; reflexivity|discriminate W2; reflexivity].
Qed.
Lemma cj_resp t t' : cj t' = cj t -> resp t' = resp t.
Proof. unfold resp. intros ->. reflexivity. Qed.

(** A close frame arrives only once. *)
Lemma open_reading s k rq : WsRecvProofs.inv C s k -> rd s = Some rq -> peer_closed (tr s) = false.
Proof.
  intros IV RD. destruct (peer_closed (tr s)) eqn:PC; [|reflexivity]. exfalso. unfold peer_closed in PC. apply existsb_exists in PC. destruct PC as (e & E1 & E2). destruct e; try discriminate E2. cbn in E2. apply N.eqb_eq in E2. subst kind.
  assert (OUT : snd (decode (is_server C) (inp s)) = delivered (tr s)) by (apply (i_out _ _ _ IV); unfold tokens; rewrite RD; cbn [has b2n]; lia).
  assert (X : In (OutControl 8 data) (delivered (tr s))). { clear - E1. induction (tr s) as [|e r IH]; [destruct E1|]. cbn [delivered]. apply in_or_app. destruct E1 as [-> | E1]; [right; left; reflexivity|left; apply IH, E1]. }
  rewrite <- OUT in X. apply close_closes in X. fold (decode (is_server C) (inp s)) in X. pose proof (i_rel _ _ _ IV rq (or_introl RD)) as RL. rewrite X in RL. unfold Rel in RL. clear - RL.
  destruct (rq_cb rq); repeat match goal with H : _ /\ _ |- _ => destruct H | H : exists _, _ |- _ => destruct H | H : _ \/ _ |- _ => destruct H end; discriminate.
Qed.

(** Events that have nothing to do with closing. *)
Definition mute (e : ev) : Prop := match e with EvHook | EvAccept JClose _ _ => False | EvData _ _ _ _ _ | EvControl _ _ | EvEof => False | _ => True end.
Definition loud (e : ev) : Prop := match e with EvHook | EvAccept JClose _ _ => False | _ => True end.
Lemma mute_loud es : Forall mute es -> Forall loud es.
Proof. apply Forall_impl. intros e. destruct e; try destruct j; intros X; try exact I; destruct X. Qed.
Lemma loud_hooks es : Forall loud es -> hooks es = 0%nat.
Proof. intros H. induction H as [|e es He _ IH]; [reflexivity|]. unfold hooks in *. cbn. destruct e; try exact IH. destruct He. Qed.
Lemma loud_asked es : Forall loud es -> close_asked es = false.
Proof. intros H. induction H as [|e es He _ IH]; [reflexivity|]. unfold close_asked in *. cbn. rewrite IH. destruct e; try reflexivity. destruct j; try reflexivity. destruct He. Qed.
Lemma tidy_loud es l : Forall loud es -> hooks l = 0%nat -> tidy l -> tidy (es ++ l).
Proof.
  intros H Z T. induction H as [|e es He Hes IH]; [exact T|]. cbn [app tidy]. split; [|exact IH].
  assert (Y : hooks (es ++ l) = 0%nat) by (rewrite hooks_app, Z, (loud_hooks _ Hes); reflexivity).
  destruct e; cbn; try exact Y; try exact I; try destruct He. destruct j; try exact I. destruct He.
Qed.
Lemma tidy_mute es l : Forall mute es -> tidy l -> tidy (es ++ l).
Proof.
  intros H T. induction H as [|e es He Hes IH]; [exact T|]. cbn [app tidy]. split; [|exact IH].
  destruct e; cbn; try exact I; try destruct He. destruct j; try exact I. destruct He.
Qed.
Lemma local_app es l : local_close l = true -> local_close (es ++ l) = true.
Proof. unfold local_close. rewrite existsb_app. intros ->. apply orb_true_r. Qed.
Lemma nclose_shape s k : nclose k = 0%nat -> shape s k.
Proof.
  intros H. destruct k as [|o k]; [exact H|]. unfold nclose in H. cbn in H. destruct o; try exact H; try discriminate H; destruct k as [|o k]; try exact H; destruct o; try exact H; try discriminate H; exact I.
Qed.
(** A step that has nothing to do with closing. *)
Lemma quiet s s' k k' es : closing s k -> nclose k = 0%nat -> nclose k' = 0%nat -> tr s' = es ++ tr s -> Forall loud es ->
  selfc s' = selfc s -> timer s' = timer s -> hooked s' = hooked s -> cj (T s') = cj (T s) ->
  (resp (T s) = true -> forall q, rep (T s') q -> In JClose q) -> closing s' k'.
Proof.
  intros [z1 z2 z3 z4 z5 z6] K K' E L S1 S2 S3 S4 IN. pose proof (cj_resp _ _ S4) as RS.
  assert (EH : hooks (tr s') = hooks (tr s)) by (rewrite E, hooks_app, (loud_hooks _ L); reflexivity).
  assert (EA : close_asked (tr s') = close_asked (tr s)) by (rewrite E, asked_app, (loud_asked _ L); reflexivity).
  split.
  - rewrite EH, EA, RS, S2, K'. rewrite K in z1. exact z1.
  - rewrite S1, EA, RS. intros X. destruct (z2 X) as (A & B & D). split; [exact A|]. split; [exact B|]. rewrite E. apply local_app, D.
  - rewrite S1, S2. exact z3.
  - apply nclose_shape, K'.
  - rewrite S3, EH. exact z5.
  - rewrite RS. exact IN.
Qed.
Lemma rep_same s s' : first (T s') = first (T s) -> last (T s') = last (T s) -> (forall n, jnext (jobs (T s') n) = jnext (jobs (T s) n)) ->
  (resp (T s) = true -> forall q, rep (T s) q -> In JClose q) -> resp (T s) = true -> forall q, rep (T s') q -> In JClose q.
Proof. intros F L J H R q Q. apply (H R). apply (rep_ext (T s')); congruence || auto. Qed.

Lemma enqueue_rep s n len ch kerr s' os q : rep (T s) q -> ~ In n q -> enqueue_job C s n len ch kerr = Ret (s', os) -> rep (T s') (q ++ [n]).
Proof.
  intros R NI H. unfold enqueue_job in H. destruct (first (T s)) as [f|] eqn:F.
  - destruct (last (T s)) as [l|] eqn:L; [|discriminate]. injection H as <- <-. apply (rep_push (T s) q l n); try assumption.
    intros ->. destruct R as [_ R]. congruence.
  - assert (q = []) by (eapply rep_nil; eassumption). subst q. binv H. destruct a as [s2 r]. cbn [fst snd] in H.
    apply send_frame_frame in E. destruct E as (_ & _ & _ & _ & _ & E6 & E7 & _). cbn in E6, E7.
    assert (s2 = s') by (destruct r; injection H; auto). subst s2. split; [repeat constructor; intros []|]. split; [exact E6|]. split; [exact I|exact E7].
Qed.

Definition good (s : ws) (k : list op) : Prop := tidy (tr s) /\ (err_top k \/ closing s k).

(** Another write is queued. *)
Lemma queue_quiet s s1 k q n j len es ch kerr s' os :
  closing s k -> tidy (tr s) -> nclose k = 0%nat -> rep (T s) q -> ~ In n q -> n <> JClose ->
  jobs (T s1) = upd (jobs (T s)) n j -> jnext j = jnext (jobs (T s) n) -> first (T s1) = first (T s) -> last (T s1) = last (T s) ->
  tr s1 = EvAccept n j len :: es ++ tr s -> Forall loud es -> Forall mute es \/ hooks (tr s) = 0%nat ->
  selfc s1 = selfc s -> timer s1 = timer s -> hooked s1 = hooked s ->
  (forall e, nclose (kerr e) = 0%nat) -> enqueue_job C s1 n len ch kerr = Ret (s', os) -> good s' (os ++ k).
Proof.
  intros Z TD K R NI NJ EJ EN EF EL ET ES MU S1 S2 S3 KE H.
  assert (R1 : rep (T s1) q).
  { apply (rep_ext (T s)); try assumption. intros m. rewrite EJ. destruct (jname_dec m n) as [-> | Hm]; [rewrite upd_same; exact EN|rewrite upd_other by assumption; reflexivity]. }
  pose proof (enqueue_rep _ _ _ _ _ _ _ _ R1 NI H) as R2.
  destruct (enqueue_frame C _ _ _ _ _ _ _ H) as ((c1 & c2 & c3 & c4 & c5 & _) & TR & JL & _ & OS).
  assert (CJ : cj (T s') = cj (T s)). { rewrite (like_cj _ _ JL). unfold cj. rewrite EJ, upd_other by congruence. reflexivity. }
  assert (X : exists es', tr s' = es' ++ tr s /\ Forall loud es' /\ (Forall mute es' \/ hooks (tr s) = 0%nat)).
  { assert (A : forall e, mute e -> Forall loud (e :: EvAccept n j len :: es) /\ (Forall mute (e :: EvAccept n j len :: es) \/ hooks (tr s) = 0%nat)).
    { intros e He. assert (mute (EvAccept n j len)) by (destruct n; try exact I; congruence). split.
      - constructor; [|constructor]; [apply (Forall_inv (mute_loud [e] (Forall_cons e He (Forall_nil _))))|destruct n; try exact I; congruence|exact ES].
      - destruct MU as [MU|MU]; [left|right; exact MU]. constructor; [exact He|]. constructor; assumption. }
    destruct TR as [TR | (c & TR)].
    - exists (EvAccept n j len :: es). rewrite TR, ET. split; [reflexivity|]. destruct (A (EvRet 0%Z) I) as [A1 A2]. split; [inversion A1; assumption|].
      destruct A2 as [A2|A2]; [left; inversion A2; assumption|right; exact A2].
    - exists (EvSend n c :: EvAccept n j len :: es). rewrite TR, ET. split; [reflexivity|]. apply A. exact I. }
  destruct X as (es' & E' & L' & M'). split.
  { rewrite E'. destruct M' as [M'|M']; [apply tidy_mute; assumption|apply tidy_loud; assumption]. }
  assert (CL : nclose os = 0%nat -> closing s' (os ++ k)).
  { intros KO. apply (quiet s s' k (os ++ k) es' Z K); try assumption; try congruence.
    - rewrite nclose_app, KO, K. reflexivity.
    - intros RS q' Q'. rewrite (rep_fun _ _ _ Q' R2). apply in_or_app. left. apply (z_in _ _ Z RS q R). }
  destruct OS as [-> | [(sh & e & ->) | (e & msg & ->)]]; [right; apply CL; reflexivity|right; apply CL; reflexivity|left; exact I].
Qed.

Lemma nc_cons o k : nclose (o :: k) = (b2n (is_closing o) + nclose k)%nat.
Proof. unfold nclose. cbn. destruct (is_closing o); reflexivity. Qed.

Lemma closing_op s o k q ch s' os : base (T s) (tr s) (o :: k) q -> normal C (T s) (tr s) (selfc s) (o :: k) q -> closing s (o :: k) -> tidy (tr s) ->
  run_op C s o ch = Ret (s', os) -> good s' (os ++ k).
Proof.
  intros B N Z TD H. pose proof (n_tail _ _ _ _ _ _ N) as KI. cbn [tl] in KI. pose proof (n_top _ _ _ _ _ _ N) as TO.
  assert (Q : forall es, nclose (o :: k) = 0%nat -> nclose os = 0%nat -> tr s' = es ++ tr s -> Forall mute es -> selfc s' = selfc s -> timer s' = timer s -> hooked s' = hooked s ->
     cj (T s') = cj (T s) -> first (T s') = first (T s) -> last (T s') = last (T s) -> (forall n, jnext (jobs (T s') n) = jnext (jobs (T s) n)) -> good s' (os ++ k)).
  { intros es K KO E M S1 S2 S3 S4 F1 F2 F3. split; [rewrite E; apply tidy_mute; assumption|]. right.
    apply (quiet s s' (o :: k) (os ++ k) es Z K); try assumption.
    - rewrite nclose_app, KO. rewrite nc_cons in K. lia.
    - apply mute_loud, M.
    - apply (rep_same s s'); try assumption. apply (z_in _ _ Z). }
  assert (Q0 : forall es, nclose (o :: k) = 0%nat -> nclose os = 0%nat -> tr s' = es ++ tr s -> Forall mute es -> T s' = T s -> selfc s' = selfc s -> timer s' = timer s -> hooked s' = hooked s -> good s' (os ++ k)).
  { intros es K KO E M ET S1 S2 S3. apply (Q es); try assumption; intros; rewrite ET; reflexivity. }
  pose proof (z_shape _ _ Z) as SH.
  destruct o; cbn [run_op] in H; cbn [shape] in SH; try (destruct TO; fail).
  - (* OUser *) injection H as <- <-. split; [exact TD|]. right. cbn [app]. destruct Z as [z1 z2 z3 z4 z5 z6].
    split; try assumption. destruct k as [|o k]; [reflexivity|]. destruct o; try (apply nclose_shape; exact SH). exact (proj2 SH).
  - (* OFire *) injection H as <- <-. apply (Q0 []); try reflexivity; [exact SH|constructor].
  - (* OAbort *) pose proof (n_tok _ _ _ _ _ _ N) as (T1 & T2 & T3). destruct (one_pong q) as [-> | ->]; [apply B|exact T3| |].
    + rewrite rep_pop_nil in H by apply B. injection H as <- <-. split; [exact TD|]. right. cbn [app].
      assert (F : first (T s) = None) by apply B. destruct Z as [z1 z2 z3 z4 z5 z6]. split; try assumption.
      destruct k as [|o k]; [reflexivity|]. destruct o; try (apply nclose_shape; exact SH). left. exact F.
    + destruct (rep_pop _ _ _ (b_rep _ _ _ _ B)) as [E _]. rewrite E in H. injection H as <- <-. split; [exact TD|]. left. cbn.
      destruct (n_ready _ _ _ _ _ _ N JPong (or_introl eq_refl)) as (_ & _ & Y). split; [exact Y|discriminate].
  - (* OClose *) destruct Z as [z1 z2 z3 z4 z5 z6]. rewrite nc_cons in z1. cbn [is_closing b2n] in z1.
    assert (HZ : hooks (tr s) = 0%nat) by (destruct (close_asked (tr s)); cbn in z1; lia).
    destruct (hasrh s); injection H as <- <-.
    + split; [cbn; split; [exact HZ|exact TD]|]. right. cbn [app]. split; cbn [T tr log timer selfc hooked]; try assumption.
      split; [reflexivity|exact SH].
    + split; [exact TD|]. right. cbn [app]. split; try assumption.
  - (* OHook *) destruct Z as [z1 z2 z3 z4 z5 z6]. rewrite nc_cons in z1. cbn [is_closing b2n] in z1.
    assert (HZ : hooks (tr s) = 0%nat) by (destruct (close_asked (tr s)); cbn in z1; lia). injection H as <- <-.
    assert (KZ : nclose k = 0%nat) by (destruct (close_asked (tr s)); cbn in z1; lia).
    split.
    + cbn [tr log set_hooked tidy tidy_ev]. split; [|exact TD]. split; [exact HZ|]. intros LC. destruct SH as [F|F]; [|destruct (z2 F) as (_ & _ & X); congruence].
      assert (q = []) by (eapply rep_nil; [apply B|exact F]). subst q. pose proof (b_usr _ _ _ _ B) as U. rewrite pend_cons, (idle_pend _ KI) in U. cbn in U. rewrite app_nil_r in U. symmetry. exact U.
    + right. cbn [app]. split; cbn [T tr log set_hooked timer selfc hooked]; try assumption.
      * rewrite nc_cons, KZ. change (hooks (EvHook :: tr s)) with (S (hooks (tr s))). change (close_asked (EvHook :: tr s)) with (close_asked (tr s)). cbn [is_closing b2n]. lia.
      * apply nclose_shape. rewrite nc_cons. exact KZ.
      * reflexivity.
  - (* OStream *) pose proof (tok_in _ _ _ _ _ _ N I) as TK.
    unfold nstream, nnext in TK. cbn [filter is_stream is_next length] in TK. fold (nstream k) in TK. fold (nnext k) in TK.
    destruct q as [|n q]; [cbn [one] in TK; lia|]. pose proof (n_sh _ _ _ _ _ _ N) as [_ SHN]. pose proof (n_ready _ _ _ _ _ _ N n (or_introl eq_refl)) as [WB RD].
    destruct (jwbh (jobs (T s) n)) as [c|] eqn:W; [|congruence]. pose proof (b_rep _ _ _ _ B) as R. pose proof (popped_rep _ _ _ R) as RP.
    rewrite (pop_form _ _ _ _ R W) in H. cbn [obind] in H. fold (popped (T s) n q) in H. rewrite popped_handler in H.
    assert (MSG : n <> JClose -> forall os', nclose os' = 0%nat -> good (set_T s (popped (T s) n q)) (os' ++ k)).
    { intros NJ os' KO. split; [exact TD|]. right. apply (quiet s _ (OStream sh err :: k) (os' ++ k) [] Z SH); try reflexivity; try constructor.
      - rewrite nclose_app, KO. rewrite nc_cons in SH. cbn in SH. exact SH.
      - unfold cj. cbn [T set_T]. rewrite popped_other by congruence. reflexivity.
      - intros RS q' Q'. cbn [T set_T] in Q'. rewrite (rep_fun _ _ _ Q' RP). destruct (z_in _ _ Z RS _ R) as [X|X]; [congruence|exact X]. }
    assert (CR : n = JClose -> resp (popped (T s) n q) = false). { intros ->. reflexivity. }
    rewrite nc_cons in SH. cbn [is_closing b2n Nat.add] in SH. rewrite SHN in H. destruct n; cbn [ready] in RD.
    + destruct RD as [S1 [id S2]]. rewrite S1, S2 in H. injection H as <- <-. apply MSG; [discriminate|reflexivity].
    + destruct RD as [S1 [id S2]]. rewrite S1, S2 in H. injection H as <- <-. apply MSG; [discriminate|reflexivity].
    + destruct RD as [S1 S2]. rewrite S1, S2 in H. injection H as <- <-. apply MSG; [discriminate|reflexivity].
    + destruct Z as [z1 z2 z3 z4 z5 z6]. rewrite nc_cons, SH in z1. cbn [is_closing b2n Nat.add] in z1.
      destruct RD as [[S1 S2]|[S1 [id S2]]]; rewrite S1 in H; injection H as <- <-; (split; [exact TD|]; right); cbn [app].
      * assert (RS : resp (T s) = true) by (unfold resp, cj; rewrite W, S1; reflexivity). rewrite RS in z1. cbn [b2n] in z1.
        split; cbn [T tr set_T timer selfc hooked]; try assumption.
        -- rewrite !nc_cons, SH, (CR eq_refl). cbn [is_closing b2n]. lia.
        -- intros X. destruct (z2 X) as (Y & _). congruence.
        -- rewrite (CR eq_refl). discriminate.
      * assert (RS : resp (T s) = false) by (unfold resp, cj; rewrite W, S1; reflexivity). rewrite RS in z1. cbn [b2n] in z1.
        split; cbn [T tr set_T timer selfc hooked]; try assumption.
        -- rewrite !nc_cons, SH, (CR eq_refl). cbn [is_closing b2n close_handler]. lia.
        -- intros X. split; [apply CR; reflexivity|]. apply (z2 X).
        -- rewrite (CR eq_refl). discriminate.
  - (* OHandler *) unfold call_handler in H. destruct h as [[id|]|]; injection H as <- <-.
    + apply (Q0 [EvWriteDone n id err c]); try reflexivity; [exact SH|repeat constructor].
    + apply (Q0 []); try reflexivity; [exact SH|constructor].
    + apply (Q0 []); try reflexivity; [exact SH|constructor].
  - unfold call_handler in H. destruct (jhandler (jobs (T s) JClose)) as [[id|]|]; injection H as <- <-.
    + apply (Q0 [EvWriteDone JClose id err c]); try reflexivity; [exact SH|repeat constructor].
    + apply (Q0 []); try reflexivity; [exact SH|constructor].
    + apply (Q0 []); try reflexivity; [exact SH|constructor].
  - (* OMsgNext *) destruct j as [n|]; [|injection H as <- <-; apply (Q0 []); try reflexivity; [exact SH|constructor]].
    destruct (jwbh (jobs (T s) n)) as [c|] eqn:W; [|discriminate]. binv H. destruct a as [s1 r]. cbn [fst snd] in H.
    apply send_frame_frame in E. destruct E as ((c1 & c2 & c3 & c4 & c5 & _) & (x1 & x2 & E2 & _) & E3 & E4 & E5 & E6 & E7 & _).
    assert (JN : forall m, jnext (jobs (T s1) m) = jnext (jobs (T s) m)). { intros m. destruct (jname_dec m n) as [-> | Hm]; [exact E3|rewrite E4 by assumption; reflexivity]. }
    destruct r; injection H as <- <-.
    + apply (Q [EvSend n x1]); try assumption; try reflexivity; [repeat constructor|apply like_cj, E5].
    + apply (Q [EvSend n x1]); try assumption; try reflexivity; [repeat constructor|apply like_cj, E5].
    + split; [rewrite E2; apply (tidy_mute [EvSend n x1]); [repeat constructor|exact TD]|left; exact I].
  - (* OPongWritten *) destruct (negb _); [injection H as <- <-; split; [exact TD|left; exact I]|].
    unfold bs_read in H. destruct (_ && _)%bool; injection H as <- <-; [split; [exact TD|left; exact I]|].
    apply (Q0 []); try reflexivity; [exact SH|destruct (Nat.eqb _ _); reflexivity|constructor].
  - injection H as <- <-. apply (Q0 []); try reflexivity; [exact SH|constructor].
  - injection H as <- <-. apply (Q0 [EvRet err]); try reflexivity; [exact SH|repeat constructor].
Qed.

Lemma quiet_k s k k' : closing s k -> nclose k = 0%nat -> nclose k' = 0%nat -> closing s k'.
Proof. intros Z K K'. apply (quiet s s k k' [] Z K K'); try reflexivity; [constructor|apply (z_in _ _ Z)]. Qed.
Lemma all_zero s k : closing s k -> close_asked (tr s) = false -> hooks (tr s) = 0%nat /\ nclose k = 0%nat /\ resp (T s) = false /\ timer s = false /\ selfc s = false.
Proof.
  intros [z1 z2 z3 z4 z5 z6] A. assert (SC : selfc s = false). { destruct (selfc s); [|reflexivity]. destruct (z2 eq_refl) as (_ & X & _). congruence. }
  rewrite A in z1. clear - z1 SC. destruct (resp (T s)), (timer s); cbn [b2n] in z1; try (exfalso; lia). repeat split; try assumption; lia.
Qed.

(** A close frame is queued. *)
Lemma queue_close s s1 k q len es ch kerr s' os :
  closing s k -> tidy (tr s) -> close_asked (tr s) = false -> rep (T s) q -> ~ In JClose q ->
  jobs (T s1) = upd (jobs (T s)) JClose (jobs (T s1) JClose) -> jnext (jobs (T s1) JClose) = jnext (jobs (T s) JClose) -> first (T s1) = first (T s) -> last (T s1) = last (T s) ->
  tr s1 = EvAccept JClose (jobs (T s1) JClose) len :: es ++ tr s -> Forall loud es -> jwbh (jobs (T s1) JClose) <> None ->
  (resp (T s1) = true /\ selfc s1 = selfc s /\ timer s1 = timer s \/ resp (T s1) = false /\ selfc s1 = true /\ timer s1 = true /\ local_close es = true) -> hooked s1 = hooked s ->
  enqueue_job C s1 JClose len ch kerr = Ret (s', os) -> (forall e, nclose (kerr e) = 0%nat) -> good s' (os ++ k).
Proof.
  intros Z TD A R NI EJ EN EF EL ET ES WB CS S3 H KE.
  destruct (all_zero s k Z A) as (H0 & K0 & R0 & T0 & C0).
  assert (R1 : rep (T s1) q).
  { apply (rep_ext (T s)); try assumption. intros m. rewrite EJ. destruct (jname_dec m JClose) as [-> | Hm]; [rewrite upd_same; exact EN|rewrite upd_other by assumption; reflexivity]. }
  pose proof (enqueue_rep _ _ _ _ _ _ _ _ R1 NI H) as R2.
  destruct (enqueue_frame C _ _ _ _ _ _ _ H) as ((c1 & c2 & c3 & c4 & c5 & _) & TR & JL & _ & OS).
  pose proof (cj_resp _ _ (like_cj _ _ JL)) as RS.
  assert (X : exists es', tr s' = es' ++ tr s1 /\ Forall mute es'). { destruct TR as [TR | (c & TR)]; [exists []|exists [EvSend JClose c]]; (split; [exact TR|repeat constructor]). }
  destruct X as (es' & E' & M').
  assert (T1 : tidy (tr s1)). { rewrite ET. cbn [tidy tidy_ev]. split; [rewrite asked_app, A, (loud_asked _ ES); reflexivity|]. apply tidy_loud; assumption. }
  split; [rewrite E'; apply tidy_mute; assumption|].
  assert (HK : hooks (tr s') = 0%nat). { rewrite E', hooks_app, (loud_hooks _ (mute_loud _ M')), ET. change (hooks (EvAccept JClose (jobs (T s1) JClose) len :: es ++ tr s)) with (hooks (es ++ tr s)). rewrite hooks_app, H0, (loud_hooks _ ES). reflexivity. }
  assert (AK : close_asked (tr s') = true). { rewrite E', asked_app, ET. apply orb_true_r. }
  assert (CL : nclose os = 0%nat -> closing s' (os ++ k)).
  { intros KO. assert (KK : nclose (os ++ k) = 0%nat) by (rewrite nclose_app, KO, K0; reflexivity). split.
    - rewrite HK, KK, AK, RS, c4. destruct CS as [(X1 & X2 & X3)|(X1 & X2 & X3 & X4)]; rewrite X1, X3; [rewrite T0|]; reflexivity.
    - rewrite c3, RS, AK. intros X. destruct CS as [(X1 & X2 & X3)|(X1 & X2 & X3 & X4)]; [congruence|]. split; [exact X1|]. split; [reflexivity|].
      rewrite E', ET. apply local_app. change (local_close (es ++ tr s) = true). unfold local_close. rewrite existsb_app. fold (local_close es). rewrite X4. reflexivity.
    - rewrite c3, c4. destruct CS as [(X1 & X2 & X3)|(X1 & X2 & X3 & X4)]; congruence.
    - apply nclose_shape, KK.
    - rewrite c5, S3, (z_hooked _ _ Z), HK, H0. reflexivity.
    - intros _ q' Q'. rewrite (rep_fun _ _ _ Q' R2). apply in_or_app. right. left. reflexivity. }
  destruct OS as [-> | [(sh & e & ->) | (e & msg & ->)]]; [right; apply CL; reflexivity|right; apply CL; reflexivity|left; exact I].
Qed.

Lemma closing_call s a ch s' os k q : proper (s, k) (XApi a ch) -> user_control k -> base (T s) (tr s) k q -> normal C (T s) (tr s) (selfc s) k q -> closing s k -> tidy (tr s) ->
  call C s a ch = Ret (s', os) -> good s' (os ++ k).
Proof.
  intros PR UC B N Z TD H. pose proof (b_rep _ _ _ _ B) as RP. cbn [proper fst] in PR. destruct PR as [OV PR].
  assert (KT : calm_top k) by (destruct UC as [-> | [k' ->]]; [left; reflexivity|right; exists OUser, k'; auto]). destruct (calm_idle _ _ _ _ _ _ N KT) as [KI TK].
  assert (K : nclose k = 0%nat).
  { pose proof (z_shape _ _ Z) as SH. destruct UC as [-> | [k' ->]]; [reflexivity|]. destruct k' as [|o k']; [reflexivity|]. cbn [shape] in SH. destruct o; try exact SH. destruct SH. congruence. }
  assert (SW : forall es, T s' = T s -> tr s' = es ++ tr s -> Forall mute es -> selfc s' = selfc s -> timer s' = timer s -> hooked s' = hooked s -> nclose os = 0%nat -> good s' (os ++ k)).
  { intros es E1 E2 E3 E4 E5 E6 KO. split; [rewrite E2; apply tidy_mute; assumption|]. right. apply (quiet s s' k (os ++ k) es Z K); try assumption.
    - rewrite nclose_app, KO, K. reflexivity.
    - apply mute_loud, E3.
    - rewrite E1. reflexivity.
    - rewrite E1. apply (z_in _ _ Z). }
  unfold call, refuse in H. destruct a as [|id flen p lf bin|id p|id p|id p|id code reason].
  - cbn [log R set_hasrh rem] in H. unfold bs_read in H. destruct (rem (R s) =? 0); destruct (_ && _)%bool; injection H as <- <-;
      first [solve [split; [exact (conj I TD)|left; exact I]] | apply (SW [EvCall ARead]); try reflexivity; [repeat constructor|destruct (Nat.eqb _ _); reflexivity]].
  - destruct id as [id|]; [|injection H as <- <-; apply (SW [EvRefuse CIO_INVALID_ARGUMENT; EvCall (AFirst None flen p lf bin)]); try reflexivity; auto; repeat constructor].
    cbn [log T] in H. destruct (jwbh (jobs (T s) JMsg)) eqn:W; [injection H as <- <-; apply (SW [EvRefuse CIO_OPERATION_NOT_PERMITTED; EvCall (AFirst (Some id) flen p lf bin)]); try reflexivity; auto; repeat constructor|].
    destruct (if fragw (T s) then _ else _) as [kind fw].
    eapply (queue_quiet s _ k q JMsg (Job (jnext (jobs (T s) JMsg)) p (Some (HUser id)) kind lf false SHMessage) flen [EvCall (AFirst (Some id) flen p lf bin)]) in H; try eassumption; try reflexivity; try discriminate; try (repeat constructor; fail).
    + intros X. destruct (n_ready _ _ _ _ _ _ N JMsg X) as [Y _]. congruence.
  - destruct PR as (PI & PN & PC & PM). cbn [log T] in H.
    eapply (queue_quiet s _ k q JMsg (Job (jnext (jobs (T s) JMsg)) p (match id with Some i => Some (HUser i) | None => None end) (jtype (jobs (T s) JMsg)) (jlast (jobs (T s) JMsg)) true SHMessage) 0 [EvCall (ACont id p)]) in H; try eassumption; try reflexivity; try discriminate; try (repeat constructor; fail).
    + eapply msg_not_waiting; try eassumption. apply idle_pend, KI.
  - destruct PR as [PN PC]. unfold write_ping_or_pong, refuse in H.
    destruct id as [id|]; [|injection H as <- <-; apply (SW [EvRefuse CIO_INVALID_ARGUMENT; EvCall (APing None p)]); try reflexivity; auto; repeat constructor].
    destruct (negb _) eqn:LIM; [injection H as <- <-; apply (SW [EvRefuse CIO_INVALID_ARGUMENT; EvCall (APing (Some id) p)]); try reflexivity; auto; repeat constructor|].
    cbn [log T] in H. destruct (jwbh (jobs (T s) JPing)) eqn:W; [injection H as <- <-; apply (SW [EvRefuse CIO_OPERATION_NOT_PERMITTED; EvCall (APing (Some id) p)]); try reflexivity; auto; repeat constructor|].
    destruct p as [c|]; [|congruence].
    eapply (queue_quiet s _ k q JPing (Job (jnext (jobs (T s) JPing)) (Some c) (Some (HUser id)) PING_FRAME true (jcont (jobs (T s) JPing)) SHMessage) (total_size c) [EvCall (APing (Some id) (Some c))]) in H; try eassumption; try reflexivity; try discriminate; try (repeat constructor; fail).
    + intros X. destruct (n_ready _ _ _ _ _ _ N JPing X) as [Y _]. congruence.
  - destruct PR.
  - destruct id as [id|]; [|injection H as <- <-; apply (SW [EvRefuse CIO_INVALID_ARGUMENT; EvCall (AClose None code reason)]); try reflexivity; auto; repeat constructor].
    cbn [log T] in H. destruct (jwbh (jobs (T s) JClose)) eqn:W; [injection H as <- <-; apply (SW [EvRefuse CIO_OPERATION_NOT_PERMITTED; EvCall (AClose (Some id) code reason)]); try reflexivity; auto; repeat constructor|].
    assert (NI : ~ In JClose q). { intros X. rewrite (n_cls1 _ _ _ _ _ _ N X) in PR. discriminate. }
    destruct (all_zero s k Z PR) as (H0 & _ & R0 & T0 & C0).
    set (s0 := log s (EvCall (AClose (Some id) code reason))) in *. set (s1 := prepare_close_job C s0 code reason (Some (HUser id)) SHClose ch) in *.
    assert (J1 : T s1 = set_job (T s) JClose (jobs (T s1) JClose)) by (unfold s1, prepare_close_job; cbn [T set_T set_job set_jobs jobs]; rewrite upd_same; reflexivity).
    assert (R1 : resp (T s1) = false) by reflexivity.
    assert (RF : forall e, good (log s1 (EvRefuse e)) k).
    { intros e. split; [exact (conj I (conj I TD))|]. right. split; cbn [T tr log timer selfc hooked].
      - change (tr s1) with (EvCall (AClose (Some id) code reason) :: tr s). change (T (log s1 (EvRefuse e))) with (T s1). rewrite R1. pose proof (z_bal _ _ Z) as z1. rewrite R0 in z1. exact z1.
      - intros X. change (selfc s = true) in X. congruence.
      - intros X. change (timer s = true) in X. congruence.
      - apply nclose_shape, K.
      - exact (z_hooked _ _ Z).
      - intros X. discriminate. }
    destruct (negb (Z.eqb (ch_timer_init ch) CIO_SUCCESS)); [injection H as <- <-; apply RF|].
    destruct (negb (Z.eqb (ch_timer_arm ch) CIO_SUCCESS)); [injection H as <- <-; apply RF|].
    eapply (queue_close s (accept_close (set_selfc (set_timer s1 true))) k q _ [EvCall (AClose (Some id) code reason)]) in H; try eassumption; try reflexivity; auto.
    + repeat constructor.
    + discriminate.
Qed.

Lemma closing_fire s k q rq f ch s' os : WsRecvProofs.inv C s k -> base (T s) (tr s) k q -> normal C (T s) (tr s) (selfc s) k q -> closing s k -> tidy (tr s) ->
  (k = [] \/ exists k', k = OFire :: k') -> hooked s = false -> rd s = Some rq -> fire_ok rq f -> fire C s rq f ch = Ret (s', os) -> good s' (os ++ k).
Proof.
  intros IV B N Z TD KT HK RD FO H. pose proof (b_rep _ _ _ _ B) as R.
  assert (K : nclose k = 0%nat) by (pose proof (z_shape _ _ Z) as SH; destruct KT as [-> | [k' ->]]; [reflexivity|exact SH]).
  assert (HZ : hooks (tr s) = 0%nat) by (pose proof (z_hooked _ _ Z) as X; rewrite HK in X; destruct (hooks (tr s)); [reflexivity|discriminate]).
  assert (TOK : (pongs (jobs (T s)) = 0)%nat). { pose proof (i_tok _ _ _ IV) as X. unfold tokens, pongtok in X. rewrite RD in X. cbn [has b2n] in X. lia. }
  assert (NOP : ~ In JPong q).
  { intros X. destruct (n_ready _ _ _ _ _ _ N JPong X) as (Y1 & _ & Y2). unfold pongs, pong_job in TOK. rewrite Y2 in TOK. destruct (jwbh (jobs (T s) JPong)); [|congruence]. cbn [b2n] in TOK. lia. }
  pose proof (open_reading s k rq IV RD) as NPC.
  destruct (fire_arrival C HC s rq f ch s' os) as (os1 & -> & AR); [destruct (i_mask _ _ _ IV) as (? & ? & _); split; assumption|exact FO|exact H|].
  rewrite <- app_assoc. cbn [app]. set (k2 := OBsReturn :: k) in *. assert (K2 : nclose k2 = 0%nat) by (unfold k2; rewrite nc_cons; exact K).
  assert (Z2 : closing s k2) by (apply (quiet_k s k); assumption).
  destruct AR as [es X1 X2 X3 X4 X5|s1 data X1 X2 X3 X4|s1 addr data X1 X2 X3 X4]; destruct X1 as (x1 & x2 & x3 & x4 & x5).
  - assert (LE : Forall loud es). { eapply Forall_impl; [|exact X3]. intros e. destruct e; intros X; try exact I; destruct X. }
    split; [rewrite X2; apply tidy_loud; assumption|].
    destruct os1 as [|o [|o2 os1]]; [| |cbn in X4; lia].
    + right. apply (quiet s s' k2 k2 es); try assumption; [congruence|]. rewrite x1. apply (z_in _ _ Z).
    + inversion X5 as [|? ? Y _]; subst. destruct o; try destruct Y; [right|right|left; exact I];
        (apply (quiet s s' k2 _ es); try assumption; [congruence|rewrite x1; apply (z_in _ _ Z)]).
  - unfold handle_ping_frame in X4. destruct (Nat.ltb 125 (length data)); [discriminate|].
    set (c := if Nat.ltb 0 (length data) then _ else _) in *. cbn [log T] in X4. rewrite x1 in X4.
    match type of X4 with enqueue_job C ?S _ _ _ _ = _ => set (s2 := S) in * end.
    eapply (queue_quiet s s2 k2 q JPong (Job (jnext (jobs (T s) JPong)) (Some c) (Some HPong) PONG_FRAME true (jcont (jobs (T s) JPong)) SHMessage) (total_size c) [EvControl PING_FRAME data]) in X4; try eassumption; try reflexivity; auto; try discriminate.
    + cbn [s2 tr log set_T]. rewrite X2. reflexivity.
    + repeat constructor.
  - unfold handle_close_frame in X4. binv X4. destruct a as [ccode rs|status len].
    { injection X4 as <- <-. split; [rewrite X2; exact TD|left; exact I]. }
    cbn [log selfc] in X4. destruct (selfc s1) eqn:SF.
    { injection X4 as <- <-. assert (SF' : selfc s = true) by congruence. pose proof Z as [z1 z2 z3 z4 z5 z6]. destruct (z2 SF') as (Y1 & Y2 & Y3). rewrite HZ, K, Y1, Y2 in z1. cbn [b2n Nat.add] in z1.
      split; [cbn [tr set_timer log tidy tidy_ev delivery]; rewrite X2; split; [exact HZ|exact TD]|]. right. split; cbn [T tr set_timer log timer selfc hooked].
      - change (hooks (EvControl CLOSE_FRAME data :: tr s1)) with (hooks (tr s1)). change (close_asked (EvControl CLOSE_FRAME data :: tr s1)) with (close_asked (tr s1)). cbn [app]. rewrite nc_cons, K2, X2, HZ, Y2, x1, Y1. reflexivity.
      - intros _. rewrite x1, X2. split; [exact Y1|]. split; [exact Y2|exact Y3].
      - discriminate.
      - right. cbn. congruence.
      - rewrite X2, x5, HK. change (hooks (EvControl CLOSE_FRAME data :: tr s)) with (hooks (tr s)). rewrite HZ. reflexivity.
      - rewrite x1. exact z6. }
    assert (NA : close_asked (tr s) = false). { destruct (close_asked (tr s)) eqn:A; [|reflexivity]. destruct (n_cls2 _ _ _ _ _ _ N A) as [Y|Y]; congruence. }
    assert (NI : ~ In JClose q). { intros X. apply (n_cls1 _ _ _ _ _ _ N) in X. congruence. }
    set (reason := if 0 <? len then _ else _) in *. set (s0 := log s1 (EvControl CLOSE_FRAME data)) in *.
    set (s2 := prepare_close_job C s0 status reason None SHResponseClose ch) in *.
    assert (J1 : T s2 = set_job (T s) JClose (jobs (T s2) JClose)) by (unfold s2, prepare_close_job; cbn [T set_T set_job set_jobs jobs s0 log]; rewrite upd_same, x1; reflexivity).
    eapply (queue_close s (accept_close s2) k2 q _ [EvControl CLOSE_FRAME data]) in X4; try eassumption; try reflexivity; auto.
    + change (T (accept_close s2)) with (T s2). rewrite J1 at 1. reflexivity.
    + change (T (accept_close s2)) with (T s2). unfold s2, prepare_close_job. cbn [T set_T set_job set_jobs jobs s0 log]. rewrite upd_same, x1. reflexivity.
    + change (T (accept_close s2)) with (T s2). rewrite J1. reflexivity.
    + change (T (accept_close s2)) with (T s2). rewrite J1. reflexivity.
    + change (T (accept_close s2)) with (T s2). unfold accept_close, s2, prepare_close_job, s0. cbn [tr log set_T app]. rewrite X2. reflexivity.
    + repeat constructor.
    + discriminate.
    + left. split; [reflexivity|]. change (selfc s1 = selfc s /\ timer s1 = timer s). split; congruence.
Qed.

Theorem reach_closing s k : reach C proper (s, k) -> cbe s = false -> good s k.
Proof.
  intros H. remember (s, k) as c eqn:Ec. revert s k Ec. induction H as [g L1 L2 L3 L4|c x c' Hr IH En Cd St]; intros s k Ec CB.
  - injection Ec as <- <-. split; [exact I|]. right. split; try reflexivity; try discriminate.
  - subst c'. destruct c as [s0 k0]. pose proof (history C _ _ _ Hr) as (HP & _).
    assert (CB0 : cbe s0 = false). { destruct (step_grow C _ _ _ _ _ St) as [G | (? & ? & ? & ? & ? & _ & _ & _ & X & _)]; [destruct (G HP) as (_ & _ & E & _); congruence|congruence]. }
    destruct (IH _ _ eq_refl CB0) as [TD G]. destruct (reach_out C HC _ _ Hr) as (q & B & V). rewrite CB0 in V.
    assert (IV : WsRecvProofs.inv C s0 k0) by (eapply reach_inv; [exact HC|]; eapply reach_mono; [|exact Hr]; intros; apply proper_reads; assumption).
    assert (W : err_top k0 \/ normal C (T s0) (tr s0) (selfc s0) k0 q /\ closing s0 k0).
    { destruct V as [V|[(o & k' & -> & EO) _]]; [|left; exact EO]. destruct G as [G|G]; [left; exact G|right; auto]. }
    clear V G. destruct W as [ER|[N Z]].
    + (* an error is about to be reported *)
      destruct k0 as [|o k0]; [destruct ER|]. cbn [err_top] in ER.
      destruct x as [ch|a ch|f ch|err|err]; cbn [enabled] in En.
      * cbn [step] in St. unfold lift in St. binv St. destruct a as [s1 os]. injection St as -> <-. cbn [fst snd].
        destruct o; try (destruct ER; fail); cbn [run_op] in E.
        -- rewrite CB0 in E. injection E as <- <-. discriminate CB.
        -- destruct ER as [-> ER]. injection E as <- <-. split; [exact TD|]. left. exact ER.
        -- destruct (Z.eqb_spec err CIO_SUCCESS) as [->|NE]; [destruct ER; reflexivity|]. injection E as <- <-. split; [exact TD|left; exact I].
      * destruct En as ([UC | [k'' UC]] & _); [discriminate|]. injection UC as -> _. destruct ER.
      * destruct En as ([UC | [k'' UC]] & _); [discriminate|]. injection UC as -> _. destruct ER.
      * destruct En as (X & _). discriminate.
      * destruct En as (X & _). discriminate.
    + destruct x as [ch|a ch|f ch|err|err]; cbn [enabled] in En.
      * destruct En as [KN CH]. destruct k0 as [|o k1]; [congruence|]. cbn [step] in St. unfold lift in St. binv St. destruct a as [s1 os]. injection St as -> <-. cbn [fst snd] in *. eapply closing_op; eassumption.
      * destruct En as (UC & _ & _ & _). cbn [step] in St. unfold lift in St. binv St. destruct a0 as [s1 os]. injection St as -> <-. cbn [fst snd] in *. eapply closing_call; eassumption.
      * destruct En as (KT & HK & _ & _ & rq & RD & FO). cbn [step] in St. rewrite RD in St. unfold lift in St. binv St. destruct a as [s1 os]. injection St as -> <-. cbn [fst snd] in *. eapply closing_fire; eassumption.
      * destruct En as (-> & _ & _). cbn [step] in St. unfold lift in St. cbn [obind fst snd app] in St. injection St as <- <-. split; [exact TD|]. right.
        apply (quiet s0 _ [] [OStream (bswh (T s0)) err] [] Z); try reflexivity; [constructor|]. apply (rep_same s0 _); try reflexivity. apply (z_in _ _ Z).
      * destruct En as (-> & TI & _). cbn [step] in St. unfold lift in St. cbn [obind fst snd app] in St. injection St as <- <-. split; [exact TD|]. right.
        destruct Z as [z1 z2 z3 z4 z5 z6]. rewrite TI in z1. split; try assumption.
        -- cbn [tr set_timer T timer]. rewrite nc_cons. cbn [is_closing b2n nclose filter length] in *. lia.
        -- discriminate.
        -- right. exact (z3 TI).
Qed.
End S.
