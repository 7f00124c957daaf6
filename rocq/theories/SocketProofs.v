From Verif Require Import Base SocketModel SocketSpec.
Local Open Scope nat_scope.

Lemma count_snoc p t e : count p (t ++ [e]) = (count p t + if p e then 1 else 0).
Proof. unfold count. rewrite filter_app, app_length. cbn. destruct (p e); reflexivity. Qed.
Lemma count_app p t u : count p (t ++ u) = count p t + count p u.
Proof. unfold count. rewrite filter_app, app_length. reflexivity. Qed.
Lemma rout_snoc t e : rout (t ++ [e]) = rout_step (rout t) e.
Proof. unfold rout. rewrite fold_left_app. reflexivity. Qed.
Lemma wout_snoc t e : wout (t ++ [e]) = wout_step (wout t) e.
Proof. unfold wout. rewrite fold_left_app. reflexivity. Qed.
Lemma cout_snoc t e : cout (t ++ [e]) = cout_step (cout t) e.
Proof. unfold cout. rewrite fold_left_app. reflexivity. Qed.
Lemma in_snoc {A} (x e : A) t : In x (t ++ [e]) <-> In x t \/ e = x.
Proof. rewrite in_app_iff. cbn. tauto. Qed.

Lemma no_hook t : ~ In EvHook t <-> count is_hook t = 0.
Proof. unfold count. induction t as [|e t IH]; cbn; [tauto|]. destruct e; cbn; try (rewrite <- IH; split; [tauto|intros H [X|X]; [discriminate|tauto]]). split; [tauto|lia]. Qed.

(** * C42 *)
Record cinv (s : sock) (k : list op) : Prop := CInv {
  c_stack : ~ In OShutdown2 k;
  c_open : alive s = true -> in_loop s = true /\ count is_hook (tr s) = 0 /\ count is_fd_closed (tr s) = 0 /\ count is_timer_closed (tr s) = 0;
  c_done : alive s = false -> in_loop s = false /\ tk s = KDisarmed /\ exists t0, tr s = t0 ++ [EvTimerClosed; EvFdClosed; EvHook] /\ In EvClose t0 /\
             count is_hook t0 = 0 /\ count is_fd_closed t0 = 0 /\ count is_timer_closed t0 = 0;
  c_timer : tk s <> KDisarmed -> th s = true;
  c_closing : alive s = true -> In EvClose (tr s) -> th s = true /\ tk s <> KDisarmed;
  c_rcb : reg_in s = true -> match rd_cb s with RNone => False | RStream => rreq s <> None | RUntilClose => True end;
  c_until : rd_cb s = RUntilClose -> In EvClose (tr s);
  c_wcb : reg_out s = true -> match wr_cb s with WNone => False | WStream => wreq s <> None | WConnect => creq s <> None end;
  c_notyet : th s = true -> In EvClose (tr s)
}.

Ltac simp := cbn [alive in_loop reg_in reg_out rd_cb wr_cb peer_closed timeout_ns th tk rreq wreq creq nid tr
  set_regs set_rcb set_wcb set_peer_closed set_timer set_rreq set_wreq set_creq next_id log leave_loop free_mem] in *.

Lemma close_socket_c s k : alive s = true -> ~ In OShutdown2 k -> In EvClose (tr s) ->
  count is_hook (tr s) = 0 /\ count is_fd_closed (tr s) = 0 /\ count is_timer_closed (tr s) = 0 ->
  (reg_out s = true -> match wr_cb s with WNone => False | WStream => wreq s <> None | WConnect => creq s <> None end) ->
  exists s', close_socket s k = Ret (s', OHook :: k) /\ cinv s' (OHook :: k) /\ tr s' = tr s ++ [EvTimerClosed; EvFdClosed; EvHook].
Proof.
  intros AL NS CL (H1 & H2 & H3) WC. unfold close_socket. rewrite AL. cbn [negb]. eexists. split; [reflexivity|]. split.
  - constructor; simp; try discriminate; try congruence.
    + intros [X|X]; [discriminate|contradiction].
    + intros _. split; [reflexivity|]. split; [reflexivity|]. exists (tr s). rewrite <- !app_assoc. repeat split; auto.
    + intros _. rewrite !in_snoc. auto.
    + exact WC.
  - simp. rewrite <- !app_assoc. reflexivity.
Qed.
Lemma reset_c s k : alive s = true -> ~ In OShutdown2 k -> In EvClose (tr s) ->
  count is_hook (tr s) = 0 /\ count is_fd_closed (tr s) = 0 /\ count is_timer_closed (tr s) = 0 ->
  (reg_out s = true -> match wr_cb s with WNone => False | WStream => wreq s <> None | WConnect => creq s <> None end) ->
  exists s', reset_connection s k = Ret (s', OHook :: k) /\ cinv s' (OHook :: k) /\ tr s' = tr s ++ [EvLinger; EvTimerClosed; EvFdClosed; EvHook].
Proof.
  intros AL NS CL H WC. unfold reset_connection. rewrite AL. cbn [negb].
  destruct (close_socket_c (log EvLinger s) k) as (s' & E & C & T); simp; auto.
  - rewrite in_snoc. auto.
  - rewrite !count_snoc. cbn. rewrite !Nat.add_0_r. exact H.
  - exists s'. split; [exact E|]. split; [exact C|]. rewrite T, <- app_assoc. reflexivity.
Qed.

Ltac fin := repeat (match goal with
  | |- _ /\ _ => split
  | |- forall _, _ => intro
  | |- context [count _ (_ ++ [_])] => rewrite !count_snoc
  | |- context [In _ (_ ++ [_])] => rewrite !in_snoc
  | H : In _ (_ ++ [_]) |- _ => rewrite !in_snoc in H
  end; cbn); rewrite ?Nat.add_0_r.

Lemma alive_of s k : cinv s k -> ~ In EvHook (tr s) -> alive s = true.
Proof.
  intros C N. destruct (alive s) eqn:A; [reflexivity|]. destruct (c_done s k C A) as (_ & _ & t0 & T & _).
  exfalso. apply N. rewrite T, in_app_iff. right. cbn. tauto.
Qed.

Lemma cinv_log s k k' e : cinv s k -> alive s = true -> ~ In OShutdown2 k' -> is_hook e = false -> is_fd_closed e = false -> is_timer_closed e = false -> e <> EvClose -> cinv (log e s) k'.
Proof.
  intros [A1 A2 A3 A4 A5 A6 A7 A8 A9] AL NS E1 E2 E3 E4. constructor; simp; auto.
  - intros _. destruct (A2 AL) as (B1 & B2 & B3 & B4). rewrite !count_snoc, E1, E2, E3. fin; auto.
  - congruence.
  - intros _. rewrite in_snoc. intros [X|X]; [auto|congruence].
  - intros X. rewrite in_snoc. auto.
  - intros X. rewrite in_snoc. auto.
Qed.
Lemma cinv_stack s k k' : cinv s k -> ~ In OShutdown2 k' -> cinv s k'.
Proof. intros [A1 A2 A3 A4 A5 A6 A7 A8 A9] N. constructor; auto. Qed.
Lemma cinv_unreg_in s k : cinv s k -> cinv (set_regs false (reg_out s) s) k.
Proof. intros [A1 A2 A3 A4 A5 A6 A7 A8 A9]. constructor; simp; auto. discriminate. Qed.
Lemma cinv_rreq_none s k : cinv s k -> reg_in s = false -> cinv (set_rreq None s) k.
Proof. intros [A1 A2 A3 A4 A5 A6 A7 A8 A9] R. constructor; simp; auto. congruence. Qed.
Lemma cinv_peer s k : cinv s k -> cinv (set_peer_closed s) k.
Proof. intros [A1 A2 A3 A4 A5 A6 A7 A8 A9]. constructor; simp; auto. Qed.
Lemma cinv_id s k : cinv s k -> cinv (next_id s) k.
Proof. intros [A1 A2 A3 A4 A5 A6 A7 A8 A9]. constructor; simp; auto. Qed.
Lemma push_ok k o : ~ In OShutdown2 k -> o <> OShutdown2 -> ~ In OShutdown2 (o :: k).
Proof. intros H N [X|X]; auto. Qed.

Ltac nolog := eapply cinv_log; [| |apply push_ok; [eassumption|discriminate] |reflexivity|reflexivity|reflexivity|discriminate]; simp.

Lemma step_cinv s k x : cinv s k -> enabled (s, k) x -> sane (s, k) x -> exists s' k', step (s, k) x = Ret (s', k') /\ cinv s' k'.
Proof.
  intros C E U. pose proof C as C0. destruct C0 as [A1 A2 A3 A4 A5 A6 A7 A8 A9].
  destruct x as [space ch|cn res ch|res ch|ch|r ctl|serr| | | |ch]; cbn [step enabled sane] in *.
  - pose proof (alive_of s k C U) as AL. unfold stream_read. rewrite AL. cbn [negb].
    set (s1 := set_regs true (reg_out s) (set_rreq (Some (nid s, space)) (set_rcb RStream (next_id s)))).
    assert (C1 : cinv s1 k). { unfold s1. constructor; simp; auto; discriminate. }
    destruct (c_ctl ch); do 2 eexists; (split; [reflexivity|]); eapply cinv_log; eauto; discriminate.
  - destruct E as [E _]. pose proof (alive_of s k C U) as AL. unfold stream_write. rewrite AL. cbn [negb].
    destruct res as [n|e].
    + do 2 eexists. split; [reflexivity|]. nolog; [|exact AL]. eapply cinv_log; eauto; try discriminate. eapply cinv_log; eauto; try discriminate. apply cinv_id, C.
    + destruct (Z.eqb e EAGAIN); [|do 2 eexists; split; [reflexivity|]; eapply cinv_log; eauto; try discriminate; apply cinv_id, C].
      assert (C1 : cinv (set_regs (reg_in s) true (set_wcb WStream (set_wreq (Some (nid s)) (next_id s)))) k). { constructor; simp; auto; discriminate. }
      destruct (c_ctl ch); do 2 eexists; (split; [reflexivity|]); eapply cinv_log; eauto; discriminate.
  - pose proof (alive_of s k C U) as AL. unfold socket_connect. rewrite AL. cbn [negb]. destruct res as [e|].
    + destruct (Z.eqb e EINPROGRESS); [|do 2 eexists; split; [reflexivity|]; eapply cinv_log; eauto; try discriminate; apply cinv_id, C].
      assert (C1 : cinv (set_regs (reg_in s) true (set_wcb WConnect (set_creq (Some (nid s)) (next_id s)))) k). { constructor; simp; auto; discriminate. }
      destruct (c_ctl ch); do 2 eexists; (split; [reflexivity|]); eapply cinv_log; eauto; discriminate.
    + do 2 eexists. split; [reflexivity|]. nolog; [|exact AL]. eapply cinv_log; eauto; try discriminate. apply cinv_id, C.
  - destruct U as [U Q]. pose proof (alive_of s k C U) as AL. unfold socket_close. rewrite AL. cbn [negb].
    destruct (A2 AL) as (B1 & B2 & B3 & B4).
    assert (CL : exists s', close_socket (log EvClose s) k = Ret (s', OHook :: k) /\ cinv s' (OHook :: k) /\ tr s' = tr (log EvClose s) ++ [EvTimerClosed; EvFdClosed; EvHook]).
    { apply close_socket_c; simp; auto; [rewrite in_snoc; auto|fin; auto]. }
    change (peer_closed (log EvClose s)) with (peer_closed s). change (timeout_ns (log EvClose s)) with (timeout_ns s).
    destruct CL as (sc & CE & CC & _).
    destruct (peer_closed s); [do 2 eexists; split; [exact CE|exact CC]|].
    destruct (N.ltb 0 (timeout_ns s)); [|do 2 eexists; split; [exact CE|exact CC]].
    unfold shutdown_socket. destruct (c_shutdown ch).
    + destruct (reset_c (log EvClose s) k) as (s' & E' & C' & _); simp; auto; [rewrite in_snoc; auto|fin; auto|]. do 2 eexists. split; [exact E'|exact C'].
    + destruct (c_settime ch).
      * destruct (reset_c (set_timer true (tk (set_rcb RUntilClose (log EvShutdown (log EvClose s)))) (set_rcb RUntilClose (log EvShutdown (log EvClose s)))) k) as (s' & E' & C' & _); simp; auto; [rewrite !in_snoc; auto|fin; auto|]. do 2 eexists. split; [exact E'|exact C'].
      * rewrite Q. unfold shutdown_end. simp. rewrite AL. cbn [negb].
        destruct (c_ctl ch).
        -- match goal with |- exists _ _, reset_connection ?x k = _ /\ _ => destruct (reset_c x k) as (s' & E' & C' & _); simp; auto; [rewrite !in_snoc; auto|fin; auto|] end. do 2 eexists. split; [exact E'|exact C'].
        -- do 2 eexists. split; [reflexivity|]. constructor; simp; auto; try congruence; try discriminate.
           ++ fin; auto.
           ++ split; [reflexivity|discriminate].
           ++ rewrite !in_snoc; auto.
           ++ rewrite !in_snoc; auto.
  - destruct E as (-> & L & R & _). assert (AL : alive s = true). { destruct (alive s) eqn:X; [reflexivity|]. destruct (A3 eq_refl) as (Y & _). congruence. }
    rewrite AL. cbn [negb]. specialize (A6 R). destruct (A2 AL) as (B1 & B2 & B3 & B4).
    pose proof (cinv_unreg_in s [] C) as C1.
    destruct (rd_cb s) eqn:RC; [contradiction| |].
    + unfold read_callback. destruct (rreq s) as [[id sp]|] eqn:RQ; [|congruence].
      assert (C2 : cinv (set_rreq None (set_regs false (reg_out s) s)) []) by (apply cinv_rreq_none; [exact C1|reflexivity]).
      assert (NS : ~ In OShutdown2 [OUser]) by (intros [X|[]]; discriminate).
      destruct ctl as [e|]; [do 2 eexists; split; [reflexivity|]; eapply cinv_log; eauto; discriminate|].
      destruct r as [[|y l]|e].
      * do 2 eexists. split; [reflexivity|]. eapply cinv_log; eauto; try discriminate. apply cinv_peer. exact C2.
      * do 2 eexists. split; [reflexivity|]. eapply cinv_log; eauto; discriminate.
      * destruct (Z.eqb e EAGAIN); [do 2 eexists; split; [reflexivity|exact C2]|]. do 2 eexists. split; [reflexivity|]. eapply cinv_log; eauto; discriminate.
    + specialize (A7 eq_refl). unfold read_until_close_callback, cancel_timer_and_reset_connection.
      set (s1 := set_regs false (reg_out s) s) in *.
      assert (AC : alive (cancel_timer s1) = true /\ tr (cancel_timer s1) = tr s /\ reg_out (cancel_timer s1) = reg_out s /\ wr_cb (cancel_timer s1) = wr_cb s /\ wreq (cancel_timer s1) = wreq s /\ creq (cancel_timer s1) = creq s).
      { unfold cancel_timer. destruct (th s1); unfold s1; simp; auto 10. }
      destruct AC as (C11 & C12 & C13 & C14 & C15 & C16).
      assert (RS : exists s' k', reset_connection (cancel_timer s1) [] = Ret (s', k') /\ cinv s' k').
      { destruct (reset_c (cancel_timer s1) []) as (s' & E' & C' & _); rewrite ?C12, ?C13, ?C14, ?C15, ?C16; auto. do 2 eexists. split; [exact E'|exact C']. }
      destruct ctl as [e|]; [exact RS|]. destruct r as [[|y l]|e].
      * destruct (close_socket_c (cancel_timer s1) []) as (s' & E' & C' & _); rewrite ?C12, ?C13, ?C14, ?C15, ?C16; auto. do 2 eexists. split; [exact E'|exact C'].
      * do 2 eexists. split; [reflexivity|exact C1].
      * destruct (Z.eqb e EAGAIN); [do 2 eexists; split; [reflexivity|exact C1]|exact RS].
  - destruct E as (-> & L & R). assert (AL : alive s = true). { destruct (alive s) eqn:X; [reflexivity|]. destruct (A3 eq_refl) as (Y & _). congruence. }
    rewrite AL. cbn [negb]. specialize (A8 R). simp.
    assert (NS : ~ In OShutdown2 [OUser]) by (intros [X|[]]; discriminate).
    assert (C1 : cinv (set_regs (reg_in s) false s) []) by (constructor; simp; auto; discriminate).
    destruct (wr_cb s) eqn:WC; [contradiction| |].
    + unfold write_callback. simp. destruct (wreq s) as [id|] eqn:WQ; [|congruence]. do 2 eexists. split; [reflexivity|].
      assert (C2 : cinv (set_wreq None (set_regs (reg_in s) false s)) []) by (constructor; simp; auto; discriminate).
      eapply cinv_log; eauto; discriminate.
    + unfold connect_callback. simp. destruct (creq s) as [id|] eqn:WQ; [|congruence]. do 2 eexists. split; [reflexivity|].
      assert (C2 : cinv (set_creq None (set_regs (reg_in s) false s)) []) by (constructor; simp; auto; discriminate).
      eapply cinv_log; eauto; discriminate.
  - do 2 eexists. split; [reflexivity|]. assert (T : th s = true) by (apply A4; congruence). constructor; simp; auto.
    + intros X. destruct (A3 X) as (_ & Y & _). congruence.
    + intros _ _. split; [exact T|discriminate].
  - destruct E as [-> AL]. destruct (tk s) eqn:TK; [do 2 eexists; split; [reflexivity|exact C]..|].
    rewrite A4 by discriminate. unfold close_timeout_handler. destruct (A2 AL) as (B1 & B2 & B3 & B4).
    destruct (reset_c (set_timer false KDisarmed s) []) as (s' & E' & C' & _); simp; auto; [apply A9, A4; discriminate|]. do 2 eexists. split; [exact E'|exact C'].
  - destruct k as [|[]]; try contradiction; do 2 eexists; (split; [reflexivity|]); (eapply cinv_stack; [exact C|]); intros X; apply A1; right; exact X.
  - exfalso. destruct k as [|[]]; try contradiction. apply A1. left. reflexivity.
Qed.

Lemma init_cinv tmo : cinv (fst (socket_init tmo)) [].
Proof. constructor; cbn; auto; try discriminate; try contradiction; try congruence. Qed.
Lemma reach_cinv tmo (user : config -> act -> Prop) c : (forall c x, user c x -> sane c x) -> reach tmo user c -> cinv (fst c) (snd c).
Proof.
  intros SU. induction 1 as [|[s k] x c' _ IH E U S]; [apply init_cinv|].
  destruct (step_cinv s k x IH E (SU _ _ U)) as (s' & k' & S' & I'). rewrite S in S'. injection S' as ->. exact I'.
Qed.

(** * C41 *)
Record tinv (t : list sev) (n : nat) : Prop := TInv {
  t_ids : forall id, n <= id -> count (is_read id) t = 0 /\ count (is_read_done id) t = 0 /\ count (is_write id) t = 0 /\ count (is_write_done id) t = 0;
  t_r : forall id, count (is_read id) t = count (is_read_done id) t + match rout t with Some i => if Nat.eqb i id then 1 else 0 | None => 0 end;
  t_w : forall id, count (is_write id) t = count (is_write_done id) t + match wout t with Some i => if Nat.eqb i id then 1 else 0 | None => 0 end;
  t_r1 : forall id, count (is_read id) t <= 1;
  t_w1 : forall id, count (is_write id) t <= 1;
  t_rl : forall id, rout t = Some id -> id < n;
  t_wl : forall id, wout t = Some id -> id < n
}.
Definition neutral (e : sev) : bool := match e with EvRead _ _ | EvReadDone _ _ | EvWrite _ _ | EvWriteDone _ _ _ => false | _ => true end.
Lemma tinv_neutral t n e : tinv t n -> neutral e = true -> tinv (t ++ [e]) n.
Proof.
  intros [A B C D E F G] N. assert (X : rout (t ++ [e]) = rout t /\ wout (t ++ [e]) = wout t) by (rewrite rout_snoc, wout_snoc; destruct e; try discriminate; auto).
  destruct X as [X1 X2]. assert (Y : forall p : nat -> sev -> bool, (forall i e', neutral e' = true -> p i e' = false) -> forall i, count (p i) (t ++ [e]) = count (p i) t).
  { intros p H i. rewrite count_snoc, H by exact N. lia. }
  assert (Z1 := Y is_read ltac:(intros i []; try discriminate; reflexivity)). assert (Z2 := Y is_read_done ltac:(intros i []; try discriminate; reflexivity)).
  assert (Z3 := Y is_write ltac:(intros i []; try discriminate; reflexivity)). assert (Z4 := Y is_write_done ltac:(intros i []; try discriminate; reflexivity)).
  constructor; intros; rewrite ?Z1, ?Z2, ?Z3, ?Z4, ?X1, ?X2 in *; auto.
Qed.
Lemma tinv_S t n : tinv t n -> tinv t (S n).
Proof. intros [A B C D E F G]. constructor; auto; intros id H; [apply A; lia|apply F in H; lia|apply G in H; lia]. Qed.
Ltac ce := repeat rewrite count_snoc; cbn.
Lemma tinv_read t n sp : tinv t n -> rout t = None -> tinv (t ++ [EvRead n sp]) (S n).
Proof.
  intros [A B C D E F G] R. constructor; intros id; rewrite ?rout_snoc, ?wout_snoc; ce; rewrite ?Nat.add_0_r; auto.
  - intros H. destruct (A id ltac:(lia)) as (A1 & A2 & A3 & A4). destruct (Nat.eqb_spec n id); lia.
  - specialize (B id). rewrite R in B. destruct (Nat.eqb n id); lia.
  - destruct (Nat.eqb_spec n id); [|specialize (D id); lia]. subst id. destruct (A n ltac:(lia)). lia.
  - intros [= <-]. lia.
  - intros H. apply G in H. lia.
Qed.
Lemma tinv_read_done t n id r : tinv t n -> rout t = Some id -> tinv (t ++ [EvReadDone id r]) n.
Proof.
  intros [A B C D E F G] R. pose proof (F id R) as L. constructor; intros j; rewrite ?rout_snoc, ?wout_snoc; ce; rewrite ?Nat.add_0_r; auto.
  - intros H. destruct (A j ltac:(lia)) as (A1 & A2 & A3 & A4). destruct (Nat.eqb_spec id j); lia.
  - specialize (B j). rewrite R in B. destruct (Nat.eqb id j); lia.
  - discriminate.
Qed.
Lemma tinv_write t n c : tinv t n -> wout t = None -> tinv (t ++ [EvWrite n c]) (S n).
Proof.
  intros [A B C D E F G] R. constructor; intros id; rewrite ?rout_snoc, ?wout_snoc; ce; rewrite ?Nat.add_0_r; auto.
  - intros H. destruct (A id ltac:(lia)) as (A1 & A2 & A3 & A4). destruct (Nat.eqb_spec n id); lia.
  - specialize (C id). rewrite R in C. destruct (Nat.eqb n id); lia.
  - destruct (Nat.eqb_spec n id); [|specialize (E id); lia]. subst id. destruct (A n ltac:(lia)). lia.
  - intros H. apply F in H. lia.
  - intros [= <-]. lia.
Qed.
Lemma tinv_write_done t n id e m : tinv t n -> wout t = Some id -> tinv (t ++ [EvWriteDone id e m]) n.
Proof.
  intros [A B C D E F G] R. pose proof (G id R) as L. constructor; intros j; rewrite ?rout_snoc, ?wout_snoc; ce; rewrite ?Nat.add_0_r; auto.
  - intros H. destruct (A j ltac:(lia)) as (A1 & A2 & A3 & A4). destruct (Nat.eqb_spec id j); lia.
  - specialize (C j). rewrite R in C. destruct (Nat.eqb id j); lia.
  - discriminate.
Qed.

Record rinv (s : sock) : Prop := RInv {
  r_t : tinv (tr s) (nid s);
  r_r : rout (tr s) = option_map fst (rreq s);
  r_w : wout (tr s) = wreq s;
  r_c : cout (tr s) = creq s;
  r_reg : ~ In EvClose (tr s) -> (rreq s <> None -> reg_in s = true /\ rd_cb s = RStream) /\
      (wreq s <> None -> reg_out s = true /\ wr_cb s = WStream) /\ (creq s <> None -> reg_out s = true /\ wr_cb s = WConnect)
}.

(** An event of no interest, with the request fields unchanged. *)
Lemma rinv_neutral s s' e : rinv s -> tr s' = tr s ++ [e] -> neutral e = true -> (match e with EvConnect _ | EvConnectDone _ _ => False | _ => True end) ->
  nid s' = nid s -> rreq s' = rreq s -> wreq s' = wreq s -> creq s' = creq s ->
  (~ In EvClose (tr s') -> reg_in s' = reg_in s /\ rd_cb s' = rd_cb s /\ reg_out s' = reg_out s /\ wr_cb s' = wr_cb s) -> rinv s'.
Proof.
  intros [A B C D R] T N NC I1 I2 I3 I4 RG. constructor; rewrite ?T, ?I1, ?I2, ?I3, ?I4, ?rout_snoc, ?wout_snoc, ?cout_snoc.
  - apply tinv_neutral; assumption.
  - destruct e; try discriminate; exact B.
  - destruct e; try discriminate; exact C.
  - destruct e; try contradiction; try discriminate; exact D.
  - rewrite T in RG. intros H. destruct (RG H) as (-> & -> & -> & ->). apply R. intros X. apply H, in_snoc. left. exact X.
Qed.
Lemma rinv_same s s' : rinv s -> tr s' = tr s -> nid s' = nid s -> rreq s' = rreq s -> wreq s' = wreq s -> creq s' = creq s ->
  (~ In EvClose (tr s) -> reg_in s' = reg_in s /\ rd_cb s' = rd_cb s /\ reg_out s' = reg_out s /\ wr_cb s' = wr_cb s) -> rinv s'.
Proof.
  intros [A B C D R] T I1 I2 I3 I4 RG. constructor; rewrite ?T, ?I1, ?I2, ?I3, ?I4; auto.
  intros H. destruct (RG H) as (-> & -> & -> & ->). apply R, H.
Qed.
Lemma close_rinv s k s' k' : rinv s -> In EvClose (tr s) -> close_socket s k = Ret (s', k') -> rinv s'.
Proof.
  intros R CL H. unfold close_socket in H. destruct (alive s); [|discriminate H]. cbn [negb] in H. injection H as <- _.
  eapply (rinv_neutral (log EvFdClosed (log EvTimerClosed s))); try reflexivity; [|intros X; exfalso; apply X; simp; rewrite !in_snoc; auto].
  eapply (rinv_neutral (log EvTimerClosed s)); try reflexivity; [|intros X; exfalso; apply X; simp; rewrite !in_snoc; auto].
  eapply (rinv_neutral s); try reflexivity; [exact R|]. intros X. exfalso. apply X. simp. rewrite !in_snoc. auto.
Qed.
Lemma reset_rinv s k s' k' : rinv s -> In EvClose (tr s) -> reset_connection s k = Ret (s', k') -> rinv s'.
Proof.
  intros R CL H. unfold reset_connection in H. destruct (alive s); [|discriminate H]. cbn [negb] in H.
  eapply close_rinv; [| |exact H]; [|simp; rewrite in_snoc; auto].
  eapply (rinv_neutral s); try reflexivity; [exact R|]. intros X. repeat split.
Qed.

Lemma step_rinv s k x s' k' : cinv s k -> rinv s -> enabled (s, k) x -> orderly (s, k) x -> step (s, k) x = Ret (s', k') -> rinv s'.
Proof.
  intros CI R E [U O] S. pose proof R as [A B C D RG].
  destruct x as [space ch|cn res ch|res ch|ch|r ctl|serr| | | |ch]; cbn [step enabled sane] in *.
  - destruct O as (SP & CT & RO & NC). unfold stream_read in S. destruct (alive s); [|discriminate S]. cbn [negb] in S. rewrite CT in S. injection S as <- _.
    destruct (RG NC) as (G1 & G2 & G3).
    constructor; simp; rewrite ?rout_snoc, ?wout_snoc, ?cout_snoc; cbn; auto.
    apply tinv_read; assumption.
  - destruct O as (CT & WO & CO & NC). unfold stream_write in S. destruct (alive s); [|discriminate S]. cbn [negb] in S. destruct (RG NC) as (G1 & G2 & G3).
    assert (WN : wreq s = None) by congruence. assert (CN : creq s = None) by congruence.
    destruct res as [n|e].
    + injection S as <- _. constructor; simp; rewrite ?rout_snoc, ?wout_snoc, ?cout_snoc; cbn; auto.
      all: try (apply tinv_write_done; [apply tinv_neutral; [apply tinv_write; assumption|reflexivity]|]; rewrite !wout_snoc; reflexivity).
      all: intros H; rewrite !in_snoc in H; auto.
    + destruct (Z.eqb e EAGAIN).
      * rewrite CT in S. injection S as <- _. constructor; simp; rewrite ?rout_snoc, ?wout_snoc, ?cout_snoc; cbn; auto.
        all: try (apply tinv_write; assumption).
        all: intros _; split; [exact G1|]; split; [auto|]; congruence.
      * injection S as <- _. constructor; simp; rewrite ?rout_snoc, ?wout_snoc, ?cout_snoc; cbn; auto.
        apply tinv_neutral; [apply tinv_S, A|reflexivity].
  - destruct O as (CT & WO & CO & NC). unfold socket_connect in S. destruct (alive s); [|discriminate S]. cbn [negb] in S. destruct (RG NC) as (G1 & G2 & G3).
    assert (WN : wreq s = None) by congruence. assert (CN : creq s = None) by congruence.
    destruct res as [e|].
    + destruct (Z.eqb e EINPROGRESS).
      * rewrite CT in S. injection S as <- _. constructor; simp; rewrite ?rout_snoc, ?wout_snoc, ?cout_snoc; cbn; auto.
        all: try (apply tinv_neutral; [apply tinv_S, A|reflexivity]).
        all: intros _; split; [exact G1|]; split; [congruence|auto].
      * injection S as <- _. constructor; simp; rewrite ?rout_snoc, ?wout_snoc, ?cout_snoc; cbn; auto.
        apply tinv_neutral; [apply tinv_S, A|reflexivity].
    + injection S as <- _. constructor; simp; rewrite ?rout_snoc, ?wout_snoc, ?cout_snoc; cbn; auto.
      apply tinv_neutral; [apply tinv_neutral; [apply tinv_S, A|reflexivity]|reflexivity].
  - unfold socket_close in S. destruct (alive s) eqn:AL; [|discriminate S]. cbn [negb] in S.
    assert (R1 : rinv (log EvClose s)) by (eapply (rinv_neutral s); try reflexivity; [exact R|repeat split]).
    assert (IC : In EvClose (tr (log EvClose s))) by (simp; rewrite in_snoc; auto).
    destruct (peer_closed (log EvClose s)); [eapply close_rinv; eassumption|]. destruct (N.ltb 0 _); [|eapply close_rinv; eassumption].
    unfold shutdown_socket in S. destruct (c_shutdown ch); [eapply reset_rinv; eassumption|].
    set (s2 := set_rcb RUntilClose (log EvShutdown (log EvClose s))) in *.
    assert (IC2 : In EvClose (tr s2)) by (unfold s2; simp; rewrite !in_snoc; auto).
    assert (R2 : rinv s2) by (eapply (rinv_neutral (log EvClose s)); try reflexivity; [exact R1|intros X; contradiction]).
    destruct (c_settime ch); [eapply reset_rinv; [| |exact S]; [eapply rinv_same; [exact R2|reflexivity..|repeat split]|exact IC2]|].
    destruct U as [_ Q]. rewrite Q in S. unfold shutdown_end in S. change (alive (set_timer true KRunning s2)) with (alive s) in S. rewrite AL in S. cbn [negb] in S.
    destruct (c_ctl ch).
    + eapply reset_rinv; [| |exact S]; [eapply (rinv_same s2); [exact R2|reflexivity..|intros X; contradiction]|exact IC2].
    + injection S as <- _. eapply (rinv_same s2); [exact R2|reflexivity..|intros X; contradiction].
  - destruct E as (-> & L & RI & LEN). destruct (alive s) eqn:AL; [|discriminate S]. cbn [negb] in S. destruct (rd_cb s) eqn:RC; [discriminate S| |].
    + unfold read_callback in S. destruct (rreq s) as [[id sp]|] eqn:RQ; [|discriminate S].
      assert (G : forall res s1, tr s1 = tr s ++ [EvReadDone id res] -> nid s1 = nid s -> rreq s1 = None -> wreq s1 = wreq s -> creq s1 = creq s -> reg_out s1 = reg_out s -> wr_cb s1 = wr_cb s -> rinv s1).
      { intros res s1 T1 T2 T3 T4 T5 T6 T7. constructor; rewrite ?T1, ?T2, ?T3, ?T4, ?T5, ?T6, ?T7, ?rout_snoc, ?wout_snoc, ?cout_snoc; cbn; auto.
        - apply tinv_read_done; assumption.
        - intros X. rewrite in_snoc in X. split; [congruence|]. apply RG. tauto. }
      destruct ctl as [e|]; [injection S as <- _; eapply G; reflexivity|]. destruct r as [[|y l]|e].
      * injection S as <- _. eapply G; reflexivity.
      * injection S as <- _. eapply G; reflexivity.
      * destruct (Z.eqb_spec e EAGAIN); [subst e; contradiction|]. injection S as <- _. eapply G; reflexivity.
    + assert (IC : In EvClose (tr s)) by (apply (c_until s [] CI), RC).
      unfold read_until_close_callback, cancel_timer_and_reset_connection in S. set (s1 := set_regs false (reg_out s) s) in *.
      assert (R1 : rinv s1) by (eapply (rinv_same s); [exact R|reflexivity..|intros X; contradiction]).
      assert (R2 : rinv (cancel_timer s1)) by (unfold cancel_timer; destruct (th s1); [eapply (rinv_same s1); [exact R1|reflexivity..|repeat split]|exact R1]).
      assert (T2 : tr (cancel_timer s1) = tr s) by (unfold cancel_timer; destruct (th s1); reflexivity).
      destruct ctl as [e|]; [eapply reset_rinv; [exact R2|rewrite T2; exact IC|exact S]|]. destruct r as [[|y l]|e].
      * eapply close_rinv; [exact R2|rewrite T2; exact IC|exact S].
      * injection S as <- _. exact R1.
      * destruct (Z.eqb e EAGAIN); [injection S as <- _; exact R1|eapply reset_rinv; [exact R2|rewrite T2; exact IC|exact S]].
  - destruct E as (-> & L & RO). destruct (alive s) eqn:AL; [|discriminate S]. cbn [negb] in S. simp. destruct (wr_cb s) eqn:WC; [discriminate S| |].
    + unfold write_callback in S. simp. destruct (wreq s) as [id|] eqn:WQ; [|discriminate S]. injection S as <- _.
      constructor; simp; rewrite ?rout_snoc, ?wout_snoc, ?cout_snoc; cbn; auto.
      * apply tinv_write_done; assumption.
      * intros X. rewrite in_snoc in X. destruct (RG ltac:(tauto)) as (G1 & G2 & G3). split; [exact G1|]. split; [congruence|]. intros Y. destruct (G3 Y). congruence.
    + unfold connect_callback in S. simp. destruct (creq s) as [id|] eqn:WQ; [|discriminate S]. injection S as <- _.
      constructor; simp; rewrite ?rout_snoc, ?wout_snoc, ?cout_snoc; cbn; auto.
      * apply tinv_neutral; [exact A|reflexivity].
      * intros X. rewrite in_snoc in X. destruct (RG ltac:(tauto)) as (G1 & G2 & G3). split; [exact G1|]. split; [|congruence]. intros Y. destruct (G2 Y). congruence.
  - injection S as <- _. eapply (rinv_same s); [exact R|reflexivity..|repeat split].
  - destruct E as [-> AL]. destruct (tk s) eqn:TK; [injection S as <- _; exact R..|]. destruct (th s) eqn:TH; [|discriminate S].
    unfold close_timeout_handler in S. eapply reset_rinv; [| |exact S]; [eapply (rinv_same s); [exact R|reflexivity..|repeat split]|]. simp. apply (c_notyet s [] CI), TH.
  - destruct k as [|[]]; try contradiction; injection S as <- _; exact R.
  - exfalso. destruct k as [|[]]; try contradiction. apply (c_stack _ _ CI). left. reflexivity.
Qed.

Lemma reach_rinv tmo c : reach tmo orderly c -> rinv (fst c).
Proof.
  induction 1 as [|[s k] x [s' k'] R IH E U S].
  - constructor; cbn; auto; [|intros _; repeat split; congruence]. constructor; cbn; auto; discriminate.
  - cbn [fst] in *. eapply step_rinv; try eassumption. change (cinv (fst (s, k)) (snd (s, k))). eapply reach_cinv; [|exact R]. intros c y X. destruct c. apply X.
Qed.
