(** C77: starting, serving and shutting down an HTTP server on Linux, Windows and Zephyr. *)
From Verif Require Import Base HttpStart.
From Verif Require ResModel.
Open Scope Z_scope.

(** ** Specification: the life of a server, from the results the application sees (newest first). *)
Inductive phase := Fresh | Ready | Serving | Failed | Stopping | Stopped.
Definition phase_of (l : list ev) : phase :=
  match l with
  | [] => Fresh
  | EvInit e :: _ => if e =? SUCCESS then Ready else Failed
  | EvServe e :: _ => if e =? SUCCESS then Serving else Failed
  | EvShutdown :: _ => Stopping
  | EvHook :: _ => Stopped
  end.

(** What an application does that follows the documentation: init first, and again only if that failed or everything was shut down;
    serve once; shutdown of what was initialised and did not fail.  And, because the code does not keep its promises otherwise (the
    refuted theorems below): TCP fast open is not asked for, or can be set; on Windows WSAIoctl and AcceptEx do not fail. *)
Definition orderly (p : plat) (s : st) (a : act) : Prop :=
  match a with
  | AInit c i =>
      (phase_of (tr s) = Fresh \/ phase_of (tr s) = Failed \/ phase_of (tr s) = Stopped) /\
      (fastopen c = true -> p <> Zephyr /\ i_fast i = None) /\ (p = Windows -> i_ioctl i = None)
  | AServe r => phase_of (tr s) = Ready /\ (p = Windows -> s_arm r = None)
  | AShutdown _ => phase_of (tr s) = Ready \/ phase_of (tr s) = Serving
  | AAborted => True
  end.

(** The listening socket is there and does what a serving server needs. *)
Definition serves (s : st) : Prop :=
  exists n k, fd s = Some n /\ find n (socks s) = Some k /\
    k_bound k = true /\ k_listening k = true /\ k_armed k = true /\ k_reuse k = true.
(** Nothing of the server is left in the kernel. *)
Definition nothing_left (s : st) : Prop := socks s = [] /\ pending s = false.

(** ** Invariant *)
Definition state_in (p : plat) (s : st) : Prop :=
  match phase_of (tr s) with
  | Fresh | Failed | Stopped => nothing_left s
  | Ready => hook s = false /\ pending s = false /\ exists n k, fd s = Some n /\ socks s = [(n, k)] /\ k_for k = endpoint s /\
      (p = Linux -> endpoint s <> Unspec) /\ (p = Zephyr -> endpoint s = Inet4 \/ endpoint s = Inet6) /\
      (p = Windows -> bound s = false /\ acc s = None /\ in_use s = 0%nat /\ cancelled s = false) /\ (n < nsock s)%nat
  | Serving => hook s = false /\ p <> Zephyr /\ exists n k, fd s = Some n /\
      k_bound k = true /\ k_listening k = true /\ k_armed k = true /\ k_reuse k = true /\
      match p with
      | Windows => exists a, acc s = Some a /\ socks s = [(a, KSock (endpoint s) false false false false false); (n, k)] /\ a <> n /\
          in_use s = 1%nat /\ pending s = true /\ cancelled s = false /\ bound s = true
      | _ => socks s = [(n, k)] /\ pending s = false
      end
  | Stopping =>
      (hook s = false /\ nothing_left s) \/
      (p = Windows /\ pending s = true /\ cancelled s = true /\ in_use s = 1%nat /\ exists n k, fd s = Some n /\ socks s = [(n, k)])
  end.
Record inv (p : plat) (s : st) : Prop := Inv { i_stray : stray s = 0%nat; i_state : state_in p s }.

Lemma on_one n k f e s : fd s = Some n -> socks s = [(n, k)] ->
  on_sock (fd s) f e s = match e with Some x => (- x, s) | None => (SUCCESS, set_socks [(n, f k)] s) end.
Proof. intros F S. unfold on_sock. rewrite F, S. cbn. rewrite Nat.eqb_refl. destruct e; reflexivity. Qed.
Lemma close_one n k s : fd s = Some n -> socks s = [(n, k)] -> close_sock (fd s) s = set_socks [] s.
Proof. intros F S. unfold close_sock. rewrite F, S. cbn. rewrite Nat.eqb_refl. reflexivity. Qed.
Lemma neg_err e : 0 < e -> (- e =? SUCCESS) = false.
Proof. intros. apply Z.eqb_neq. unfold SUCCESS. lia. Qed.
(** Closing a socket that is alone. *)
Lemma close_alone p n k s : fd s = Some n -> socks s = [(n, k)] -> pending s = false ->
  (p = Windows -> acc s = None /\ in_use s = 0%nat) ->
  exists s', stray s' = stray s /\ nothing_left s' /\ hook s' = hook s /\
    server_socket_close p s = (if (match p with Windows => bound s | _ => false end) then s' else server_socket_closed s') /\ tr s' = tr s.
Proof.
  intros F S P W. destruct p; unfold server_socket_close.
  - rewrite (close_one n k) by assumption. exists (set_socks [] s). repeat split; try reflexivity; exact P.
  - destruct (W eq_refl) as [A U]. exists (set_socks [] (set_cancelled true s)).
    split; [reflexivity|]. split; [split; [reflexivity|exact P]|]. split; [reflexivity|]. split; [|reflexivity].
    unfold close_listen_socket. cbn [acc set_cancelled]. rewrite A. unfold try_free. cbn [in_use set_cancelled]. rewrite U.
    change (Nat.eqb 0 0) with true. cbv iota. rewrite (close_one n k) by assumption. reflexivity.
  - rewrite (close_one n k) by assumption. exists (set_socks [] s). repeat split; try reflexivity; exact P.
Qed.
Lemma init_inv p c i s e s' : inv p s -> enabled p s (AInit c i) -> orderly p s (AInit c i) -> http_server_init p c i s = (e, s') ->
  stray s' = 0%nat /\ tr s' = tr s /\ ((e <> SUCCESS /\ nothing_left s') \/ (e = SUCCESS /\ state_in p (log (EvInit e) s'))).
Proof.
  intros [I0 I] (E1 & E2 & E3 & E4) (O1 & O2 & O3) H.
  assert (NL : nothing_left s). { unfold state_in in I. destruct O1 as [O1|[O1|O1]]; rewrite O1 in I; exact I. }
  clear I O1. destruct NL as [NS NP]. unfold http_server_init in H.
  destruct (negb (valid c) || (header_timeout c =? 0)%N)%bool.
  { inversion H; subst. split; [exact I0|]. split; [reflexivity|]. left. split; [destruct p; discriminate | split; assumption]. }
  destruct (negb (ResModel.keepalive_fits (header_timeout c))).
  { inversion H; subst. split; [exact I0|]. split; [reflexivity|]. left. split; [destruct p; discriminate | split; assumption]. }
  set (s0 := set_endpoint (at_ c) (set_hook false s)) in *.
  assert (I1 : forall e1 s1, server_socket_init p (at_ c) i s0 = (e1, s1) -> stray s1 = 0%nat /\ tr s1 = tr s /\
    ((e1 <> SUCCESS /\ nothing_left s1) \/ (e1 = SUCCESS /\ state_in p (log (EvInit SUCCESS) s1)))).
  { intros e1 s1 X. unfold server_socket_init in X.
    assert (ER : forall x, 0 < x -> - x <> SUCCESS) by (unfold SUCCESS; intros; lia).
    destruct p.
    - assert (Y : forall f, at_ c = f -> f <> Unspec -> (match i_socket i with
          | Some x => (- x, s0)
          | None => match f, i_setup i with
              | Inet6, Some x => (- x, close_sock (Some (nsock s0)) (open_sock f s0))
              | _, _ => (SUCCESS, set_fd (Some (nsock s0)) (open_sock f s0))
              end
          end) = (e1, s1) -> stray s1 = 0%nat /\ tr s1 = tr s /\
          ((e1 <> SUCCESS /\ nothing_left s1) \/ (e1 = SUCCESS /\ state_in Linux (log (EvInit SUCCESS) s1)))).
      { intros f Ef Nf Y. destruct (i_socket i) as [x|].
        { inversion Y; subst. split; [exact I0|]. split; [reflexivity|]. left. split; [apply ER, E1 | split; assumption]. }
        assert (G : forall (W : (SUCCESS, set_fd (Some (nsock s0)) (open_sock f s0)) = (e1, s1)), stray s1 = 0%nat /\ tr s1 = tr s /\
          ((e1 <> SUCCESS /\ nothing_left s1) \/ (e1 = SUCCESS /\ state_in Linux (log (EvInit SUCCESS) s1)))).
        { intros W. inversion W; subst e1 s1. split; [exact I0|]. split; [reflexivity|]. right. split; [reflexivity|].
          unfold state_in. cbn [phase_of tr log Z.eqb SUCCESS]. split; [reflexivity|]. split; [exact NP|].
          exists (nsock s0), (fresh f). cbn. rewrite NS. repeat split; try discriminate; try congruence. lia. }
        destruct f; try (apply G; exact Y). destruct (i_setup i) as [x|]; [|apply G; exact Y].
        inversion Y; subst. split; [|split; [|left; split; [apply ER, E2 | split]]]; unfold close_sock; cbn; rewrite Nat.eqb_refl; cbn; try reflexivity; try assumption. }
      destruct (at_ c) eqn:Ef; [|eapply Y; eauto; congruence ..].
      inversion X; subst. split; [exact I0|]. split; [reflexivity|]. left. split; [discriminate | split; assumption].
    - set (s00 := set_acc None (set_bound false s0)) in *. destruct (i_socket i) as [x|].
      { inversion X; subst. split; [exact I0|]. split; [reflexivity|]. left. split; [apply ER, E1 | split; assumption]. }
      destruct (i_setup i) as [x|].
      { inversion X; subst. split; [|split; [|left; split; [apply ER, E2 | split]]]; unfold close_sock; cbn; rewrite Nat.eqb_refl; cbn; try reflexivity; try assumption. }
      rewrite (O3 eq_refl) in X. inversion X; subst e1 s1. split; [exact I0|]. split; [reflexivity|]. right. split; [reflexivity|].
      unfold state_in. cbn [phase_of tr log Z.eqb SUCCESS]. split; [reflexivity|]. split; [exact NP|].
      exists (nsock s00), (fresh (at_ c)). cbn. rewrite NS. repeat split; try discriminate; try congruence. lia.
    - assert (Y : at_ c = Inet4 \/ at_ c = Inet6 -> (match i_socket i with
          | Some x => (- x, s0) | None => (SUCCESS, set_fd (Some (nsock s0)) (open_sock (at_ c) s0)) end) = (e1, s1) ->
          stray s1 = 0%nat /\ tr s1 = tr s /\ ((e1 <> SUCCESS /\ nothing_left s1) \/ (e1 = SUCCESS /\ state_in Zephyr (log (EvInit SUCCESS) s1)))).
      { intros A Y. destruct (i_socket i) as [x|].
        { inversion Y; subst. split; [exact I0|]. split; [reflexivity|]. left. split; [apply ER, E1 | split; assumption]. }
        inversion Y; subst e1 s1. split; [exact I0|]. split; [reflexivity|]. right. split; [reflexivity|].
        unfold state_in. cbn [phase_of tr log Z.eqb SUCCESS]. split; [reflexivity|]. split; [exact NP|].
        exists (nsock s0), (fresh (at_ c)). cbn. rewrite NS. repeat split; try discriminate; try congruence; try (intros; exact A). lia. }
      destruct (at_ c) eqn:Ef; try (apply Y; [auto|exact X]);
      (inversion X; subst; split; [exact I0|]; split; [reflexivity|]; left; split; [discriminate | split; assumption]). }
  destruct (server_socket_init p (at_ c) i s0) as [e1 s1] eqn:X. specialize (I1 _ _ eq_refl). destruct I1 as (S1 & T1 & D).
  destruct D as [[N D]|[-> D]].
  { replace (e1 =? SUCCESS) with false in H by (symmetry; apply Z.eqb_neq; exact N). cbn in H. inversion H; subst. auto. }
  cbn [Z.eqb SUCCESS negb] in H. destruct (fastopen c).
  2:{ inversion H; subst. split; [exact S1|]. split; [exact T1|]. right. split; [reflexivity | exact D]. }
  destruct (O2 eq_refl) as [NZ F0]. unfold state_in in D. cbn [phase_of tr log Z.eqb SUCCESS] in D.
  destruct D as (HK & PN & n & k & F & SO & KF & A1 & A2 & A3 & LT). cbn [fd socks endpoint hook pending nsock log] in *.
  unfold set_tcp_fast_open in H. rewrite F0 in H. rewrite (on_one n k) in H by assumption.
  assert (H' : (SUCCESS, set_socks [(n, now_fast k)] s1) = (e, s')) by (destruct p; [exact H|exact H|congruence]). clear H.
  inversion H'; subst e s'. split; [exact S1|]. split; [exact T1|]. right. split; [reflexivity|].
  unfold state_in. cbn [phase_of tr log Z.eqb SUCCESS]. split; [exact HK|]. split; [exact PN|]. exists n, (now_fast k).
  cbn. split; [exact F|]. split; [reflexivity|]. split; [exact KF|]. split; [exact A1|]. split; [exact A2|]. split; [exact A3|exact LT].
Qed.
(** A step that failed, and the closing after it. *)
Definition plat_eq_dec (p : plat) : {p = Zephyr} + {p <> Zephyr}.
Proof. destruct p; (left; reflexivity) || (right; discriminate). Defined.
Lemma fail_close p n k s e e' s' : fd s = Some n -> socks s = [(n, k)] -> pending s = false -> hook s = false -> stray s = 0%nat ->
  (p = Windows -> acc s = None /\ in_use s = 0%nat) -> e <> SUCCESS -> (e, server_socket_close p s) = (e', s') ->
  stray s' = 0%nat /\ tr s' = tr s /\ ((e' <> SUCCESS /\ nothing_left s') \/ (e' = SUCCESS /\ state_in p (log (EvServe e') s'))).
Proof.
  intros F S P Hk St W Ne X. inversion X as [[X1 X2]]. destruct (close_alone p n k s F S P W) as (t & A1 & A2 & A3 & A4 & A5).
  assert (E : server_socket_close p s = t).
  { rewrite A4. destruct (match p with Windows => bound s | _ => false end); [reflexivity|]. unfold server_socket_closed. rewrite A3, Hk. reflexivity. }
  rewrite E. split; [congruence|]. split; [exact A5|]. left. split; [congruence | exact A2].
Qed.
Lemma serve_inv p r s e s' : inv p s -> enabled p s (AServe r) -> orderly p s (AServe r) -> http_server_serve p r s = (e, s') ->
  stray s' = 0%nat /\ tr s' = tr s /\ ((e <> SUCCESS /\ nothing_left s') \/ (e = SUCCESS /\ state_in p (log (EvServe e) s'))).
Proof.
  intros [I0 I] (E1 & E2 & E3 & E4 & E5 & E6) (O1 & O2) H. unfold state_in in I. rewrite O1 in I.
  destruct I as (HK & PN & n & k & F & SO & KF & A1 & A2 & A3 & LT). unfold http_server_serve in H.
  assert (ER : forall x, 0 < x -> - x <> SUCCESS) by (unfold SUCCESS; intros; lia).
  assert (W3 : p = Windows -> acc s = None /\ in_use s = 0%nat) by (intros Y; apply A3 in Y; tauto).
  unfold set_reuse_address in H. destruct (plat_eq_dec p) as [Z|NZ].
  { rewrite Z in H. cbn [negb Z.eqb OPERATION_NOT_SUPPORTED SUCCESS] in H. rewrite <- Z in H.
    eapply (fail_close p n k s OPERATION_NOT_SUPPORTED); eauto. discriminate. }
  assert (H1 : (let (e0, s1) := on_sock (fd s) now_reuse (s_reuse r) s in
      if negb (e0 =? SUCCESS) then (e0, server_socket_close p s1)
      else let (e1, s2) := server_socket_bind p (endpoint s1) r s1 in
        if negb (e1 =? SUCCESS) then (e1, server_socket_close p s2)
        else let (e2, s3) := server_socket_accept p r s2 in if negb (e2 =? SUCCESS) then (e2, server_socket_close p s3) else (e2, s3)) = (e, s'))
    by (destruct p; [exact H | exact H | congruence]). clear H. rename H1 into H.
  rewrite (on_one n k) in H by assumption. destruct (s_reuse r) as [x|].
  { cbn in E1. rewrite (neg_err x E1) in H. cbn [negb] in H. eapply (fail_close p n k s (- x)); eauto. }
  cbn [negb Z.eqb SUCCESS] in H. set (s1 := set_socks [(n, now_reuse k)] s) in *. change (endpoint s1) with (endpoint s) in H.
  destruct p; [| | congruence].
  - (* Linux *)
    assert (B : forall e1 s2, server_socket_bind Linux (endpoint s) r s1 = (e1, s2) ->
      (e1 <> SUCCESS /\ s2 = s1) \/ (e1 = SUCCESS /\ s2 = set_socks [(n, now_bound (now_reuse k))] s1)).
    { intros e1 s2 X. unfold server_socket_bind in X.
      assert (G : on_sock (fd s1) now_bound (s_bind r) s1 = (e1, s2) -> (e1 <> SUCCESS /\ s2 = s1) \/ (e1 = SUCCESS /\ s2 = set_socks [(n, now_bound (now_reuse k))] s1)).
      { intros Y. rewrite (on_one n (now_reuse k)) in Y by (exact F || reflexivity). destruct (s_bind r) as [y|]; inversion Y; subst; [left; split; [apply ER, E3|reflexivity] | right; auto]. }
      destruct (endpoint s) as [| | |b]; [exfalso; now apply A1 | apply G, X | apply G, X |].
      destruct b; [|apply G, X]. destruct (s_unlink r) as [y|]; [|apply G, X]. destruct (y =? ENOENT); [apply G, X|].
      inversion X; subst. left. split; [apply ER, E2|reflexivity]. }
    destruct (server_socket_bind Linux (endpoint s) r s1) as [e1 s2]. destruct (B _ _ eq_refl) as [[N ->]|[-> ->]]; clear B.
    { replace (e1 =? SUCCESS) with false in H by (symmetry; apply Z.eqb_neq; exact N). cbn [negb] in H.
      eapply (fail_close Linux n _ s1 e1); eauto; reflexivity. }
    cbn [negb Z.eqb SUCCESS] in H. set (s2 := set_socks [(n, now_bound (now_reuse k))] s1) in *. unfold server_socket_accept in H.
    rewrite (on_one n (now_bound (now_reuse k))) in H by (exact F || reflexivity). destruct (s_listen r) as [x|].
    { cbn in E4. rewrite (neg_err x E4) in H. cbn [negb] in H. rewrite (neg_err x E4) in H. cbn [negb] in H. eapply (fail_close Linux n _ s2 (- x)); eauto; reflexivity. }
    cbn [negb Z.eqb SUCCESS] in H. set (s3 := set_socks [(n, now_listening (now_bound (now_reuse k)))] s2) in *. destruct (s_add r) as [x|].
    { cbn in E5. rewrite (neg_err x E5) in H. cbn [negb] in H. eapply (fail_close Linux n _ s3 (- x)); eauto; reflexivity. }
    rewrite (on_one n (now_listening (now_bound (now_reuse k)))) in H by (exact F || reflexivity). destruct (s_arm r) as [x|].
    { cbn in E6. rewrite (neg_err x E6) in H. cbn [negb] in H. eapply (fail_close Linux n _ s3 (- x)); eauto; reflexivity. }
    cbn [negb Z.eqb SUCCESS] in H. inversion H; subst e s'. split; [exact I0|]. split; [reflexivity|]. right. split; [reflexivity|].
    unfold state_in. cbn [phase_of tr log Z.eqb SUCCESS]. split; [exact HK|]. split; [discriminate|]. exists n, (now_armed (now_listening (now_bound (now_reuse k)))). split; [exact F|].
    do 4 (split; [reflexivity|]). cbn. split; [reflexivity | exact PN].
  - (* Windows *)
    destruct (A3 eq_refl) as (AB & AA & AU & AC).
    unfold server_socket_bind in H. rewrite (on_one n (now_reuse k)) in H by (exact F || reflexivity). destruct (s_bind r) as [x|].
    { cbn in E3. rewrite (neg_err x E3) in H. rewrite (neg_err x E3) in H. cbn [negb] in H. eapply (fail_close Windows n _ s1 (- x)); eauto; reflexivity. }
    cbn [negb Z.eqb SUCCESS] in H. set (s2 := set_bound true (set_socks [(n, now_bound (now_reuse k))] s1)) in *.
    unfold server_socket_accept in H. change (bound s2) with true in H. cbv iota in H.
    rewrite (on_one n (now_bound (now_reuse k))) in H by (exact F || reflexivity). destruct (s_listen r) as [x|].
    { cbn in E4. rewrite (neg_err x E4) in H. cbn [negb] in H. rewrite (neg_err x E4) in H. cbn [negb] in H. eapply (fail_close Windows n _ s2 (- x)); eauto; reflexivity. }
    cbn [negb Z.eqb SUCCESS] in H. set (s3 := set_socks [(n, now_listening (now_bound (now_reuse k)))] s2) in *.
    unfold prepare_accept_socket in H. destruct (s_add r) as [x|].
    { cbn in E5. rewrite (neg_err x E5) in H. cbn [negb] in H. eapply (fail_close Windows n (now_listening (now_bound (now_reuse k))) (set_acc None s3) (- x)); eauto; reflexivity. }
    rewrite (O2 eq_refl) in H. change (pending (set_acc (Some (nsock s3)) (open_sock (endpoint s3) s3))) with (pending s) in H. rewrite PN in H. cbv iota in H.
    unfold on_sock in H. change (fd (set_acc (Some (nsock s3)) (open_sock (endpoint s3) s3))) with (fd s) in H. rewrite F in H.
    change (socks (set_acc (Some (nsock s3)) (open_sock (endpoint s3) s3))) with [(nsock s, fresh (endpoint s)); (n, now_listening (now_bound (now_reuse k)))] in H.
    assert (NE : Nat.eqb (nsock s) n = false) by (apply Nat.eqb_neq; lia).
    cbn [find update] in H. rewrite NE, Nat.eqb_refl in H. cbn [negb Z.eqb SUCCESS] in H. inversion H; subst e s'. split; [exact I0|]. split; [reflexivity|]. right. split; [reflexivity|].
    unfold state_in. cbn [phase_of tr log Z.eqb SUCCESS]. split; [exact HK|]. split; [discriminate|]. exists n, (now_armed (now_listening (now_bound (now_reuse k)))). split; [exact F|].
    do 4 (split; [reflexivity|]). exists (nsock s). cbn. rewrite AU. repeat split; try assumption; try reflexivity. lia.
Qed.
Lemma closed_alone_nothing p n k s b : fd s = Some n -> socks s = [(n, k)] -> pending s = false -> stray s = 0%nat ->
  (p = Windows -> bound s = false /\ acc s = None /\ in_use s = 0%nat) ->
  http_server_shutdown p b (log EvShutdown s) = (let t := set_hook b (log EvShutdown (match p with Windows => set_cancelled true s | _ => s end)) in
    if b then log EvHook (set_socks [] t) else set_socks [] t).
Proof.
  intros F S P St W. unfold http_server_shutdown, server_socket_close. destruct p; [| |].
  - rewrite (close_one n k) by assumption. unfold server_socket_closed. destruct b; reflexivity.
  - destruct (W eq_refl) as (B & A & U). unfold close_listen_socket. cbn [acc set_cancelled set_hook log]. rewrite A. unfold try_free. cbn [in_use set_cancelled set_hook log]. rewrite U.
    change (Nat.eqb 0 0) with true. cbv iota. rewrite (close_one n k) by assumption. cbn [bound set_socks set_cancelled set_hook log]. rewrite B. unfold server_socket_closed. destruct b; reflexivity.
  - rewrite (close_one n k) by assumption. unfold server_socket_closed. destruct b; reflexivity.
Qed.
Lemma shutdown_inv p b s : inv p s -> orderly p s (AShutdown b) -> inv p (step p s (AShutdown b)).
Proof.
  intros [I0 I] O. cbn [step]. unfold state_in in I. cbn [orderly] in O.
  assert (D : forall n k, fd s = Some n -> socks s = [(n, k)] -> pending s = false -> (p = Windows -> bound s = false /\ acc s = None /\ in_use s = 0%nat) ->
    inv p (http_server_shutdown p b (log EvShutdown s))).
  { intros n k F S P W. rewrite (closed_alone_nothing p n k s b F S P I0 W). cbv zeta. split.
    - destruct b, p; exact I0.
    - unfold state_in. destruct b; [destruct p; (split; [reflexivity | exact P])|].
      destruct p; (left; split; [reflexivity|split; [reflexivity|exact P]]). }
  destruct O as [O|O]; rewrite O in I.
  - destruct I as (HK & PN & n & k & F & SO & KF & A1 & A2 & A3 & LT). apply (D n k F SO PN). intros Y. apply A3 in Y. tauto.
  - destruct I as (HK & NZ & n & k & F & K1 & K2 & K3 & K4 & M). destruct p; [|clear D|congruence].
    + destruct M as [M PN]. apply (D n k F M PN). discriminate.
    + destruct M as (a & A & SO & NE & U & PN & CN & BO). unfold http_server_shutdown, server_socket_close, close_listen_socket.
      cbn [acc set_cancelled set_hook log]. rewrite A. unfold close_sock. cbn [socks set_cancelled set_hook log]. rewrite SO. cbn [find remove]. rewrite Nat.eqb_refl.
      unfold try_free. cbn [in_use set_socks set_cancelled set_hook log]. rewrite U. change (Nat.eqb 1 0) with false. cbv iota.
      split; [exact I0|]. unfold state_in. cbn [phase_of tr set_socks set_cancelled set_hook log]. right. split; [reflexivity|]. split; [exact PN|]. split; [reflexivity|]. split; [exact U|].
      exists n, k. split; [exact F | reflexivity].
Qed.
Lemma aborted_inv p s : inv p s -> enabled p s AAborted -> inv p (step p s AAborted).
Proof.
  intros [I0 I] (-> & P & C). cbn [step].
  assert (X : in_use s = 1%nat /\ phase_of (tr s) = Stopping /\ exists n k, fd s = Some n /\ socks s = [(n, k)]).
  { unfold state_in, nothing_left in I. destruct (phase_of (tr s)) eqn:E; try (destruct I; congruence).
    - destruct I as (_ & X & _). congruence.
    - destruct I as (_ & _ & n & k & _ & _ & _ & _ & _ & a & _ & _ & _ & _ & _ & X & _). congruence.
    - destruct I as [(_ & _ & X)|(_ & _ & _ & U & X)]; [congruence|]. auto. }
  destruct X as (U & E & n & k & F & S). unfold aborted, try_free. cbn [in_use set_in_use set_bound set_pending]. rewrite U. change (Nat.eqb (pred 1) 0) with true. cbv iota.
  rewrite (close_one n k) by assumption. cbn [bound set_socks set_bound]. unfold server_socket_closed. cbn [hook set_socks set_bound set_in_use set_pending]. destruct (hook s) eqn:H; (split; [exact I0|]).
  - unfold state_in. cbn [phase_of tr log]. split; reflexivity.
  - unfold state_in. cbn [tr set_socks set_bound set_in_use set_pending]. rewrite E. left. cbn. split; [exact H|]. split; reflexivity.
Qed.
Lemma step_inv p s a : inv p s -> enabled p s a -> orderly p s a -> inv p (step p s a).
Proof.
  intros I E O. destruct a as [c i|r|b|].
  - cbn [step]. destruct (http_server_init p c i s) as [e s'] eqn:H. destruct (init_inv p c i s e s' I E O H) as (S & T & [[N D]|[-> D]]); (split; [exact S|]).
    + unfold state_in. cbn [phase_of tr log]. replace (e =? SUCCESS) with false by (symmetry; apply Z.eqb_neq; exact N). exact D.
    + exact D.
  - cbn [step]. destruct (http_server_serve p r s) as [e s'] eqn:H. destruct (serve_inv p r s e s' I E O H) as (S & T & [[N D]|[-> D]]); (split; [exact S|]).
    + unfold state_in. cbn [phase_of tr log]. replace (e =? SUCCESS) with false by (symmetry; apply Z.eqb_neq; exact N). exact D.
    + exact D.
  - apply shutdown_inv; assumption.
  - apply aborted_inv; assumption.
Qed.
Lemma reach_inv p s : reach p (orderly p) s -> inv p s.
Proof.
  intros R. induction R as [j h|s a R IH E O]; [|apply step_inv; assumption].
  split; [reflexivity|]. unfold state_in. cbn. split; reflexivity.
Qed.

(** ** Theorems *)
(** The state of the kernel is what the history of results says: after a serve that reported success the socket is bound, listens,
    has its address reusable and reports connections to the loop; after a failure, and when the close hook was called, nothing is
    left; between init and serve there is one socket; and no call ever used a socket that was closed. *)
Theorem C77_state_follows_history : forall p s, reach p (orderly p) s ->
  stray s = 0%nat /\
  (phase_of (tr s) = Serving -> serves s) /\
  (phase_of (tr s) = Fresh \/ phase_of (tr s) = Failed \/ phase_of (tr s) = Stopped -> nothing_left s) /\
  (phase_of (tr s) = Ready -> exists n k, fd s = Some n /\ socks s = [(n, k)] /\ k_for k = endpoint s) /\
  (phase_of (tr s) = Stopping -> nothing_left s \/ (p = Windows /\ enabled p s AAborted)).
Proof.
  intros p s R. destruct (reach_inv p s R) as [I0 I]. unfold state_in in I. split; [exact I0|].
  destruct (phase_of (tr s)) eqn:E; (split; [intros X; try discriminate|split; [intros X; try (destruct X as [X|[X|X]]; discriminate)|split; [intros X; try discriminate|intros X; try discriminate]]]); try exact I.
  - destruct I as (_ & _ & n & k & F & SO & KF & _). exists n, k. auto.
  - destruct I as (_ & NZ & n & k & F & K1 & K2 & K3 & K4 & M). exists n, k. split; [exact F|]. split; [|auto].
    destruct p; [destruct M as [M _]; rewrite M; cbn; rewrite Nat.eqb_refl; reflexivity| |congruence].
    destruct M as (a & _ & SO & NE & _). rewrite SO. cbn. apply Nat.eqb_neq in NE. rewrite NE, Nat.eqb_refl. reflexivity.
  - destruct I as [(_ & I)|(W & P & C & _)]; [left; exact I | right]. split; [exact W|]. split; [exact W|]. split; assumption.
Qed.
Print Assumptions C77_state_follows_history.

Definition no_errors : sfate := SFate None None None None None None.
(** A server that was initialised serves when no system call fails - on Linux and Windows. *)
Theorem C77_serves_when_nothing_fails : forall p s, p <> Zephyr -> reach p (orderly p) s -> phase_of (tr s) = Ready ->
  tr (step p s (AServe no_errors)) = EvServe SUCCESS :: tr s /\ serves (step p s (AServe no_errors)).
Proof.
  intros p s NZ R PH.
  assert (X : tr (step p s (AServe no_errors)) = EvServe SUCCESS :: tr s).
  { destruct (reach_inv p s R) as [I0 I]. unfold state_in in I. rewrite PH in I. destruct I as (HK & PN & n & k & F & SO & KF & A1 & A2 & A3 & LT).
    cbn [step]. unfold http_server_serve. destruct p; [| |congruence]; cbn [set_reuse_address no_errors s_reuse]; rewrite (on_one n k) by assumption; cbn [negb Z.eqb SUCCESS].
    - set (s1 := set_socks [(n, now_reuse k)] s). change (endpoint s1) with (endpoint s).
      assert (B : server_socket_bind Linux (endpoint s) no_errors s1 = (SUCCESS, set_socks [(n, now_bound (now_reuse k))] s1)).
      { unfold server_socket_bind. specialize (A1 eq_refl). destruct (endpoint s) as [| | |[|]]; [congruence|..]; cbn [s_unlink s_bind no_errors]; rewrite (on_one n (now_reuse k)) by (exact F || reflexivity); reflexivity. }
      rewrite B. cbn [negb Z.eqb SUCCESS]. unfold server_socket_accept. cbn [s_listen s_add s_arm no_errors].
      rewrite (on_one n (now_bound (now_reuse k))) by (exact F || reflexivity). cbn [negb Z.eqb SUCCESS].
      rewrite (on_one n (now_listening (now_bound (now_reuse k)))) by (exact F || reflexivity). reflexivity.
    - set (s1 := set_socks [(n, now_reuse k)] s). unfold server_socket_bind. cbn [s_bind no_errors]. rewrite (on_one n (now_reuse k)) by (exact F || reflexivity). cbn [negb Z.eqb SUCCESS].
      unfold server_socket_accept. set (s2 := set_bound true (set_socks [(n, now_bound (now_reuse k))] s1)). change (bound s2) with true. cbv iota. cbn [s_listen no_errors].
      rewrite (on_one n (now_bound (now_reuse k))) by (exact F || reflexivity). cbn [negb Z.eqb SUCCESS]. unfold prepare_accept_socket. cbn [s_add s_arm no_errors].
      set (s3 := set_socks [(n, now_listening (now_bound (now_reuse k)))] s2).
      change (pending (set_acc (Some (nsock s3)) (open_sock (endpoint s3) s3))) with (pending s). rewrite PN. cbv iota.
      unfold on_sock. change (fd (set_acc (Some (nsock s3)) (open_sock (endpoint s3) s3))) with (fd s). rewrite F.
      change (socks (set_acc (Some (nsock s3)) (open_sock (endpoint s3) s3))) with [(nsock s, fresh (endpoint s)); (n, now_listening (now_bound (now_reuse k)))].
      assert (NE : Nat.eqb (nsock s) n = false) by (apply Nat.eqb_neq; lia). cbn [find update]. rewrite NE, Nat.eqb_refl. reflexivity. }
  split; [exact X|]. apply (C77_state_follows_history p); [|rewrite X; reflexivity].
  apply reach_step; [exact R | repeat split | split; [exact PH | reflexivity]].
Qed.
Print Assumptions C77_serves_when_nothing_fails.

(** VIOLATED on Zephyr: no HTTP server ever serves, whatever the kernel and the application do. *)
Theorem C77_zephyr_never_serves_refuted : forall s, reach Zephyr anything s ->
  ~ In (EvServe SUCCESS) (tr s) /\ forall r, tr (step Zephyr s (AServe r)) = EvServe OPERATION_NOT_SUPPORTED :: (if hook s then [EvHook] else []) ++ tr s.
Proof.
  assert (C : forall h s, tr (close_sock h s) = tr s /\ hook (close_sock h s) = hook s).
  { intros h s. unfold close_sock. destruct h; [destruct (find _ _)|]; split; reflexivity. }
  assert (V : forall r s, tr (step Zephyr s (AServe r)) = EvServe OPERATION_NOT_SUPPORTED :: (if hook s then [EvHook] else []) ++ tr s).
  { intros r s. cbn. unfold server_socket_closed. destruct (C (fd s) s) as [C1 C2]. rewrite C2. destruct (hook s); cbn; rewrite C1; reflexivity. }
  intros s R. split; [|intros r; apply V]. induction R as [j h|s a R IH E _]; [intros []|].
  destruct a as [c i|r|b|].
  - cbn [step]. assert (T : exists e, tr (let (e, s0) := http_server_init Zephyr c i s in log (EvInit e) s0) = EvInit e :: tr s).
    { unfold http_server_init. destruct (_ || _)%bool; [eexists; reflexivity|]. destruct (negb _); [eexists; reflexivity|].
      cbn [server_socket_init]. destruct (at_ c); try (eexists; reflexivity); (destruct (i_socket i) as [x|];
        [destruct (- x =? SUCCESS) eqn:Ex; cbn [negb]; [destruct (fastopen c)|]; eexists; reflexivity | cbn [negb Z.eqb SUCCESS]; destruct (fastopen c); eexists; reflexivity]). }
    destruct T as [e T]. rewrite T. intros [X|X]; [discriminate | exact (IH X)].
  - rewrite V. intros [X|X]; [discriminate|]. apply in_app_or in X. destruct X as [X|X]; [destruct (hook s); [destruct X as [X|[]]; discriminate | destruct X] | exact (IH X)].
  - cbn [step]. unfold http_server_shutdown. cbn [server_socket_close]. unfold server_socket_closed. set (t := set_hook b (log EvShutdown s)).
    destruct (C (fd t) t) as [C1 C2]. destruct (hook (close_sock (fd t) t)); cbn [tr log]; rewrite C1; cbn; intuition discriminate.
  - destruct E as [E _]. discriminate.
Qed.
Print Assumptions C77_zephyr_never_serves_refuted.

(** Which configurations are accepted when no system call fails: the seconds of the header timeout, taken modulo 2^32, have at most
    nine digits, the port knows the address family, and it knows TCP fast open if that is asked for. *)
Lemma fits_iff ns : ResModel.keepalive_fits ns = true <-> (ns / 1000000000 mod 2 ^ 32 < 1000000000)%N.
Proof.
  unfold ResModel.keepalive_fits. set (n := (ns / 1000000000 mod 2 ^ 32)%N). rewrite N.ltb_lt. unfold ResModel.digits32.
  repeat match goal with |- context[(n <? ?c)%N] => destruct (N.ltb_spec n c) end; lia.
Qed.
Definition all_fine : ifate := IFate None None None None.
Lemma on_new n k r f s : fd s = Some n -> socks s = (n, k) :: r -> on_sock (fd s) f None s = (SUCCESS, set_socks ((n, f k) :: r) s).
Proof. intros F S. unfold on_sock. rewrite F, S. cbn [find update]. rewrite Nat.eqb_refl. reflexivity. Qed.
Definition ss_result (p : plat) (a : fam) : Z :=
  match p with
  | Linux => match a with Unspec => INVALID_ARGUMENT p | _ => SUCCESS end
  | Windows => SUCCESS
  | Zephyr => match a with Inet4 | Inet6 => SUCCESS | _ => INVALID_ARGUMENT p end
  end.
Lemma ss_init_fine p a s : exists s', server_socket_init p a all_fine s = (ss_result p a, s') /\ tr s' = tr s /\
  (ss_result p a = SUCCESS -> fd s' = Some (nsock s) /\ socks s' = (nsock s, fresh a) :: socks s).
Proof. destruct p, a as [| | |b]; eexists; (split; [reflexivity|split; [reflexivity|]]); intros X; try discriminate X; split; reflexivity. Qed.
Lemma init_accepts p s c b : b = ResModel.keepalive_fits (header_timeout c) ->
  exists e, tr (step p s (AInit c all_fine)) = EvInit e :: tr s /\
  (e = SUCCESS <-> valid c = true /\ (header_timeout c =? 0)%N = false /\ b = true /\
    match p with
    | Linux => at_ c <> Unspec
    | Windows => True
    | Zephyr => (at_ c = Inet4 \/ at_ c = Inet6) /\ fastopen c = false
    end).
Proof.
  intros B. cbn [step]. unfold http_server_init. rewrite <- B. clear B. destruct (valid c); cbn [negb orb].
  2:{ eexists. split; [reflexivity|]. split; [destruct p; discriminate | intros [X _]; discriminate]. }
  destruct (header_timeout c =? 0)%N; [eexists; split; [reflexivity|]; split; [destruct p; discriminate | intros (_ & X & _); discriminate]|].
  destruct b; cbn [negb].
  2:{ eexists. split; [reflexivity|]. split; [destruct p; discriminate | intros (_ & _ & X & _); discriminate]. }
  set (s0 := set_endpoint (at_ c) (set_hook false s)). destruct (ss_init_fine p (at_ c) s0) as (s1 & E & T & G). rewrite E.
  change (tr s0) with (tr s) in T. clear E.
  assert (D : ss_result p (at_ c) = SUCCESS \/ (ss_result p (at_ c) <> SUCCESS /\ (p = Linux /\ at_ c = Unspec \/ p = Zephyr /\ at_ c <> Inet4 /\ at_ c <> Inet6))).
  { destruct p, (at_ c) as [| | |b]; cbn; auto; right; (split; [discriminate|]); [left; auto | right; repeat split; discriminate ..]. }
  destruct D as [D|[D D2]].
  - destruct (G D) as [F S]. clear G. rewrite D. cbn [negb Z.eqb SUCCESS].
    assert (Y : match p with Linux => at_ c <> Unspec | Windows => True | Zephyr => at_ c = Inet4 \/ at_ c = Inet6 end).
    { revert D. destruct p, (at_ c) as [| | |b]; cbn; intros D; try discriminate D; auto; discriminate. }
    destruct (fastopen c) eqn:FO.
    + destruct p; [unfold set_tcp_fast_open; rewrite (on_new (nsock s0) (fresh (at_ c)) (socks s0)) by assumption; exists SUCCESS; cbn [tr log set_socks]; rewrite T; split; [reflexivity|]; split; auto..|].
      exists OPERATION_NOT_SUPPORTED. cbn [tr log set_tcp_fast_open]. rewrite T. split; [reflexivity|]. split; [discriminate | intros (_ & _ & _ & _ & X); discriminate].
    + exists SUCCESS. cbn [tr log]. rewrite T. split; [reflexivity|]. split; [|auto]. intros _. repeat split; destruct p; auto.
  - apply Z.eqb_neq in D. rewrite D. cbn [negb]. exists (ss_result p (at_ c)). cbn [tr log]. rewrite T. split; [reflexivity|]. apply Z.eqb_neq in D. split; [contradiction|].
    intros (_ & _ & _ & X). exfalso. destruct D2 as [[-> D2]|(-> & D2 & D3)]; [contradiction|]. destruct X as [[X|X] _]; contradiction.
Qed.
Theorem C77_configurations : forall p s c,
  tr (step p s (AInit c all_fine)) = EvInit SUCCESS :: tr s <->
  valid c = true /\ header_timeout c <> 0%N /\ (header_timeout c / 1000000000 mod 2 ^ 32 < 1000000000)%N /\
  match p with
  | Linux => at_ c <> Unspec
  | Windows => True
  | Zephyr => (at_ c = Inet4 \/ at_ c = Inet6) /\ fastopen c = false
  end.
Proof.
  intros p s c. destruct (init_accepts p s c _ eq_refl) as (e & -> & H). rewrite fits_iff, N.eqb_neq in H.
  split; [intros X; apply H; congruence | intros X; apply H in X; congruence].
Qed.
Print Assumptions C77_configurations.

(** Shutdown: the hook is called at once, or on Windows, if the server served, when the loop runs next; then nothing is left. *)
Theorem C77_shutdown_calls_hook : forall p s, reach p (orderly p) s -> phase_of (tr s) = Ready \/ phase_of (tr s) = Serving ->
  let s1 := step p s (AShutdown true) in
  (tr s1 = EvHook :: EvShutdown :: tr s /\ nothing_left s1) \/
  (p = Windows /\ phase_of (tr s) = Serving /\ tr s1 = EvShutdown :: tr s /\ enabled p s1 AAborted /\
   tr (step p s1 AAborted) = EvHook :: EvShutdown :: tr s /\ nothing_left (step p s1 AAborted)).
Proof.
  intros p s R O s1. subst s1. assert (R1 : reach p (orderly p) (step p s (AShutdown true))) by (apply reach_step; [exact R | constructor | exact O]).
  destruct (reach_inv p s R) as [I0 I]. unfold state_in in I. cbn [step] in *.
  assert (D : forall n k, fd s = Some n -> socks s = [(n, k)] -> pending s = false -> (p = Windows -> bound s = false /\ acc s = None /\ in_use s = 0%nat) ->
    tr (http_server_shutdown p true (log EvShutdown s)) = EvHook :: EvShutdown :: tr s /\ nothing_left (http_server_shutdown p true (log EvShutdown s))).
  { intros n k F S P W. rewrite (closed_alone_nothing p n k s true F S P I0 W). cbv zeta. destruct p; (split; [reflexivity|]); split; (reflexivity || exact P). }
  destruct O as [O|O]; rewrite O in I.
  - destruct I as (HK & PN & n & k & F & SO & KF & A1 & A2 & A3 & LT). left. apply (D n k F SO PN). intros Y. apply A3 in Y. tauto.
  - destruct I as (HK & NZ & n & k & F & K1 & K2 & K3 & K4 & M). destruct p; [left|right; clear D|congruence].
    + destruct M as [M PN]. apply (D n k F M PN). discriminate.
    + destruct M as (a & A & SO & NE & U & PN & CN & BO). revert R1. unfold http_server_shutdown, server_socket_close, close_listen_socket.
      cbn [acc set_cancelled set_hook log]. rewrite A. unfold close_sock. cbn [socks set_cancelled set_hook log]. rewrite SO. cbn [find remove]. rewrite Nat.eqb_refl.
      unfold try_free at 1 2 3 4. cbn [in_use set_socks set_cancelled set_hook log]. rewrite U. change (Nat.eqb 1 0) with false. cbv iota. intros R1.
      split; [reflexivity|]. split; [exact O|]. split; [reflexivity|]. split; [split; [reflexivity|split; [exact PN|reflexivity]]|].
      unfold aborted, try_free, close_sock. cbn [in_use set_in_use set_bound set_pending set_socks set_cancelled set_hook log fd socks]. rewrite ?U, ?F. cbn. rewrite ?U, ?F. cbn. rewrite ?Nat.eqb_refl. cbn. unfold server_socket_closed. cbn. split; [reflexivity|split; reflexivity].
Qed.
Print Assumptions C77_shutdown_calls_hook.

(** The hook is called only for a shutdown, once, when nothing is left in the kernel, and nothing happens between the two. *)
Theorem C77_hook_after_shutdown : forall p s l1 l0, reach p (orderly p) s -> tr s = l1 ++ EvHook :: l0 -> exists l, l0 = EvShutdown :: l.
Proof.
  intros p s l1 l0 R. revert l1 l0. induction R as [j h|s a R IH E O]; intros l1 l0 H; [destruct l1; discriminate|].
  pose proof (reach_inv p s R) as I.
  assert (G : forall e, e <> EvHook -> tr (step p s a) = e :: tr s -> exists l, l0 = EvShutdown :: l).
  { intros e Ne X. rewrite X in H. destruct l1 as [|x l1]; inversion H; subst; [congruence|]. eapply IH; eauto. }
  destruct a as [c i|r|b|].
  - cbn [step] in *. destruct (http_server_init p c i s) as [e s'] eqn:X. destruct (init_inv p c i s e s' I E O X) as (_ & T & _). apply (G (EvInit e)); [discriminate|]. cbn [tr log]. rewrite T. reflexivity.
  - cbn [step] in *. destruct (http_server_serve p r s) as [e s'] eqn:X. destruct (serve_inv p r s e s' I E O X) as (_ & T & _). apply (G (EvServe e)); [discriminate|]. cbn [tr log]. rewrite T. reflexivity.
  - assert (T : tr (step p s (AShutdown b)) = EvShutdown :: tr s \/ tr (step p s (AShutdown b)) = EvHook :: EvShutdown :: tr s).
    { cbn [step]. unfold http_server_shutdown, server_socket_close, close_listen_socket, try_free, server_socket_closed, close_sock.
      repeat match goal with |- context[match ?x with _ => _ end] => destruct x end; cbn; auto. }
    destruct T as [T|T]; [apply (G EvShutdown); [discriminate | exact T]|]. rewrite T in H.
    destruct l1 as [|x l1]; inversion H; subst; [eauto|]. destruct l1 as [|y l1]; inversion H; subst. eapply IH; eauto.
  - pose proof (step_inv p s AAborted I E O) as I'. destruct E as (Wi & P & C).
    assert (T : tr (step p s AAborted) = tr s \/ tr (step p s AAborted) = EvHook :: tr s).
    { cbn [step]. unfold aborted, try_free, server_socket_closed, close_sock.
      repeat match goal with |- context[match ?x with _ => _ end] => destruct x end; cbn; auto. }
    destruct T as [T|T]; rewrite T in H; [eapply IH; eauto|]. destruct l1 as [|x l1]; inversion H; subst; [|eapply IH; eauto].
    destruct I as [_ I]. unfold state_in, nothing_left in I. destruct (tr s) as [|[e|e| |] l]; cbn in I; try (destruct I; congruence); [destruct (e =? SUCCESS)|destruct (e =? SUCCESS)|eauto];
      [destruct I as (_ & X & _); congruence | destruct I; congruence | destruct I as (_ & _ & n & k & _ & _ & _ & _ & _ & M); cbn in M; destruct M as (a & _ & _ & _ & _ & _ & X & _); congruence | destruct I; congruence].
Qed.
Print Assumptions C77_hook_after_shutdown.

(** ** Whatever the application does: a serve that reports success does serve. *)
Definition numbered (s : st) : Prop := forall n, In n (map fst (socks s)) -> (n < nsock s)%nat.
Lemma find_in n l k : find n l = Some k -> In n (map fst l).
Proof. induction l as [|[m x] l IH]; cbn; [discriminate|]. destruct (Nat.eqb_spec m n); [auto|]. intros H. right. exact (IH H). Qed.
Lemma fst_update n f l : map fst (update n f l) = map fst l.
Proof. induction l as [|[m x] l IH]; cbn; [reflexivity|]. destruct (Nat.eqb m n); cbn; congruence. Qed.
Lemma in_remove m n l : In m (map fst (remove n l)) -> In m (map fst l).
Proof. induction l as [|[a x] l IH]; cbn; [auto|]. destruct (Nat.eqb a n); cbn; tauto. Qed.
Lemma find_update n f l k : find n l = Some k -> find n (update n f l) = Some (f k).
Proof. induction l as [|[m x] l IH]; cbn; [discriminate|]. destruct (Nat.eqb_spec m n) as [->|N]; cbn; [rewrite Nat.eqb_refl; congruence|]. intros H. apply Nat.eqb_neq in N. rewrite N. auto. Qed.
(** What the calls leave alone. *)
Record kept (s s' : st) : Prop := Kept { kp_fd : fd s' = fd s; kp_num : numbered s -> numbered s'; kp_end : endpoint s' = endpoint s }.
Lemma on_sock_cases h f e s : let r := on_sock h f e s in kept s (snd r) /\ bound (snd r) = bound s /\
  (pos e -> fst r = SUCCESS -> exists n k, h = Some n /\ find n (socks s) = Some k /\ find n (socks (snd r)) = Some (f k)).
Proof.
  cbv zeta. unfold on_sock. destruct h as [n|].
  - destruct (find n (socks s)) as [k|] eqn:F; [destruct e as [x|]|]; cbn [fst snd].
    + split; [split; auto|]. split; [reflexivity|]. cbn. unfold SUCCESS. lia.
    + split; [split; auto; unfold numbered; cbn; rewrite fst_update; auto|]. split; [reflexivity|]. intros _ _. exists n, k. cbn. split; [reflexivity|]. split; [exact F | apply find_update, F].
    + split; [split; auto|]. split; [reflexivity|]. discriminate.
  - cbn. split; [split; auto|]. split; [reflexivity|]. discriminate.
Qed.
Lemma num_close h s : numbered s -> numbered (close_sock h s).
Proof. intros N. unfold close_sock. destruct h as [n|]; [destruct (find n (socks s))|]; auto. intros m. cbn. intros H. apply N, (in_remove _ n), H. Qed.
Lemma num_open f s : numbered s -> numbered (open_sock f s).
Proof. intros N m. cbn. intros [<-|H]; [lia|]. specialize (N m H). lia. Qed.
Lemma num_closed s : numbered s -> numbered (server_socket_closed s).
Proof. unfold server_socket_closed. destruct (hook s); auto. Qed.
Lemma num_try s : numbered s -> numbered (try_free s).
Proof.
  intros N. unfold try_free. destruct (Nat.eqb (in_use s) 0); [|exact N]. destruct (bound (close_sock (fd s) s)); [apply num_close, N | apply num_closed, num_close, N].
Qed.
Lemma num_sclose p s : numbered s -> numbered (server_socket_close p s).
Proof.
  intros N. destruct p; cbn [server_socket_close]; try (apply num_closed, num_close, N). unfold close_listen_socket. apply num_try.
  destruct (acc (set_cancelled true s)); [apply num_close|]; exact N.
Qed.
Lemma num_same s s' : socks s' = socks s -> nsock s' = nsock s -> numbered s -> numbered s'.
Proof. intros A B N n. rewrite A, B. apply N. Qed.
Lemma num_clisten s : numbered s -> numbered (close_listen_socket s).
Proof. exact (num_sclose Windows s). Qed.
Lemma num_small x y s : numbered s -> numbered (set_cancelled x (set_fd y s)).
Proof. exact (fun N => N). Qed.
Lemma num_small2 x y z s : numbered s -> numbered (set_in_use z (set_cancelled x (set_fd y s))).
Proof. exact (fun N => N). Qed.
Definition init_with (p : plat) (c : config) (i : ifate) (b1 b2 : bool) (s : st) : Z * st :=
  if b1 then (INVALID_ARGUMENT p, s)
  else
    let s := set_endpoint (at_ c) (set_hook false s) in
    if negb b2 then (NO_BUFFER_SPACE p, s)
    else
      let (e, s) := server_socket_init p (at_ c) i s in
      if negb (e =? SUCCESS) then (e, s)
      else if fastopen c then set_tcp_fast_open p (i_fast i) s else (SUCCESS, s).
Lemma num_init_with p c i b1 b2 s : numbered s -> numbered (snd (init_with p c i b1 b2 s)).
Proof.
  intros N. unfold init_with. destruct b1; [exact N|]. destruct b2; cbn [negb]; [|exact N].
  set (s0 := set_endpoint (at_ c) (set_hook false s)). assert (N0 : numbered s0) by exact N. clearbody s0. clear N.
  assert (X : numbered (snd (server_socket_init p (at_ c) i s0))).
  { assert (LI : numbered (snd (match i_socket i with Some e => (- e, s0) | None => let n := nsock s0 in let s := open_sock (at_ c) s0 in
        match at_ c, i_setup i with Inet6, Some e => (- e, close_sock (Some n) s) | _, _ => (SUCCESS, set_fd (Some n) s) end end))).
    { destruct (i_socket i); [exact N0|]. cbv zeta. destruct (at_ c), (i_setup i); cbn [snd]; first [exact (num_close _ _ (num_open _ _ N0)) | match goal with |- numbered (set_fd ?x (open_sock ?f ?t)) => exact (num_same (open_sock f t) _ eq_refl eq_refl (num_open f t N0)) end]. }
    destruct p; cbn [server_socket_init].
    - destruct (at_ c); [exact N0|exact LI..].
    - destruct (i_socket i); [exact N0|]. destruct (i_setup i); [apply num_close, num_open, N0|]. destruct (i_ioctl i); cbn [snd]; [apply num_clisten; apply num_small, num_open, N0 | apply num_small2, num_open, N0].
    - destruct (at_ c); try exact N0; (destruct (i_socket i); [exact N0 | cbn [snd]; match goal with |- numbered (set_fd ?x (open_sock ?f ?t)) => exact (num_same (open_sock f t) _ eq_refl eq_refl (num_open f t N0)) end]). }
  destruct (server_socket_init p (at_ c) i s0) as [e s1]. cbn in X. destruct (negb (e =? SUCCESS)); [exact X|]. destruct (fastopen c); [|exact X].
  destruct p; cbn [set_tcp_fast_open]; first [exact X | exact (kp_num _ _ (proj1 (on_sock_cases _ _ _ _)) X)].
Qed.
Lemma num_init p c i s : numbered s -> numbered (snd (http_server_init p c i s)).
Proof. exact (num_init_with p c i (negb (valid c) || (header_timeout c =? 0)%N)%bool (ResModel.keepalive_fits (header_timeout c)) s). Qed.
Lemma bind_cases p a r s : let q := server_socket_bind p a r s in kept s (snd q) /\
  (pos (s_unlink r) -> pos (s_bind r) -> fst q = SUCCESS -> exists n k, fd s = Some n /\ find n (socks s) = Some k /\ find n (socks (snd q)) = Some (now_bound k) /\ (p = Windows -> bound (snd q) = true)).
Proof.
  cbv zeta. destruct (on_sock_cases (fd s) now_bound (s_bind r) s) as (K & B & C). cbv zeta in *.
  assert (G : p <> Windows -> kept s (snd (on_sock (fd s) now_bound (s_bind r) s)) /\ (pos (s_unlink r) -> pos (s_bind r) -> fst (on_sock (fd s) now_bound (s_bind r) s) = SUCCESS ->
    exists n k, fd s = Some n /\ find n (socks s) = Some k /\ find n (socks (snd (on_sock (fd s) now_bound (s_bind r) s))) = Some (now_bound k) /\ (p = Windows -> bound (snd (on_sock (fd s) now_bound (s_bind r) s)) = true))).
  { intros Np. split; [exact K|]. intros _ P E. destruct (C P E) as (n & k & X). exists n, k. destruct X as (X1 & X2 & X3). split; [exact X1|]. split; [exact X2|]. split; [exact X3 | congruence]. }
  destruct p; cbn [server_socket_bind].
  - destruct a as [| | |b]; [|apply G; discriminate..|].
    + split; [split; auto | discriminate].
    + destruct b; [|apply G; discriminate]. destruct (s_unlink r) as [x|]; [|apply G; discriminate]. destruct (x =? ENOENT); [apply G; discriminate|].
      split; [split; auto|]. cbn. unfold SUCCESS. lia.
  - destruct (on_sock (fd s) now_bound (s_bind r) s) as [e s'] eqn:Q. cbn [fst snd] in *. destruct (Z.eqb_spec e SUCCESS) as [->|Ne]; cbn [fst snd].
    + split; [destruct K; split; auto|]. intros _ P _. destruct (C P eq_refl) as (n & k & X1 & X2 & X3). exists n, k. auto.
    + split; [exact K|]. congruence.
  - destruct a as [| | |b]; [|apply G; discriminate..|]; (split; [split; auto | discriminate]).
Qed.
Lemma serve_cases p r s e s' : numbered s -> enabled p s (AServe r) -> http_server_serve p r s = (e, s') -> numbered s' /\ (e = SUCCESS -> serves s').
Proof.
  intros N (E1 & E2 & E3 & E4 & E5 & E6) H. unfold http_server_serve in H. destruct (plat_eq_dec p) as [->|NZ].
  { cbn in H. inversion H; subst. split; [apply num_closed, num_close, N | discriminate]. }
  assert (Q : set_reuse_address p (s_reuse r) s = on_sock (fd s) now_reuse (s_reuse r) s) by (destruct p; try reflexivity; congruence).
  rewrite Q in H. clear Q. destruct (on_sock_cases (fd s) now_reuse (s_reuse r) s) as (K1 & _ & C1). destruct (on_sock (fd s) now_reuse (s_reuse r) s) as [e1 s1]. cbn [fst snd] in *.
  destruct (Z.eqb_spec e1 SUCCESS) as [->|N1]; cbn [negb] in H.
  2:{ inversion H; subst. split; [apply num_sclose, (kp_num _ _ K1), N | congruence]. }
  destruct (C1 E1 eq_refl) as (n & k & F & _ & S1). clear C1.
  destruct (bind_cases p (endpoint s1) r s1) as (K2 & C2). destruct (server_socket_bind p (endpoint s1) r s1) as [e2 s2]. cbn [fst snd] in *.
  destruct (Z.eqb_spec e2 SUCCESS) as [->|N2]; cbn [negb] in H.
  2:{ inversion H; subst. split; [apply num_sclose, (kp_num _ _ K2), (kp_num _ _ K1), N | congruence]. }
  destruct (C2 E2 E3 eq_refl) as (n2 & k2 & F2 & S2 & S3 & B). clear C2.
  rewrite (kp_fd _ _ K1), F in F2. inversion F2; subst n2. rewrite S1 in S2. inversion S2; subst k2. clear S2 F2.
  assert (F2 : fd s2 = Some n) by (rewrite (kp_fd _ _ K2), (kp_fd _ _ K1); exact F).
  assert (N3 : numbered s2) by (apply (kp_num _ _ K2), (kp_num _ _ K1), N).
  assert (A : numbered (snd (server_socket_accept p r s2)) /\ (fst (server_socket_accept p r s2) = SUCCESS -> serves (snd (server_socket_accept p r s2)))).
  { unfold server_socket_accept. destruct (on_sock_cases (fd s2) now_listening (s_listen r) s2) as (K3 & B3 & C3). destruct (on_sock (fd s2) now_listening (s_listen r) s2) as [e3 s3]. cbn [fst snd] in *.
    assert (F3 : fd s3 = Some n) by (rewrite (kp_fd _ _ K3); exact F2). pose proof (kp_num _ _ K3 N3) as N4.
    destruct p; [| |congruence].
    - destruct (Z.eqb_spec e3 SUCCESS) as [->|NE]; cbn [negb fst snd]; [|split; [exact N4 | congruence]].
      destruct (C3 E4 eq_refl) as (n3 & k3 & X1 & X2 & X3). rewrite F2 in X1. inversion X1; subst n3. rewrite S3 in X2. inversion X2; subst k3. clear X1 X2.
      destruct (s_add r) as [x|]; cbn [fst snd]; [split; [exact N4|]; cbn in E5; unfold SUCCESS; lia|].
      destruct (on_sock_cases (fd s3) now_armed (s_arm r) s3) as (K4 & _ & C4). destruct (on_sock (fd s3) now_armed (s_arm r) s3) as [e4 s4]. cbn [fst snd] in *.
      split; [exact (kp_num _ _ K4 N4)|]. intros ->. destruct (C4 E6 eq_refl) as (n4 & k4 & X1 & X2 & X4). rewrite F3 in X1. inversion X1; subst n4. rewrite X3 in X2. inversion X2; subst k4.
      exists n, (now_armed (now_listening (now_bound (now_reuse k)))). split; [rewrite (kp_fd _ _ K4); exact F3|]. split; [exact X4|]. repeat split.
    - rewrite (B eq_refl). destruct (Z.eqb_spec e3 SUCCESS) as [->|NE]; cbn [negb fst snd]; [|split; [exact N4 | congruence]].
      destruct (C3 E4 eq_refl) as (n3 & k3 & X1 & X2 & X3). rewrite F2 in X1. inversion X1; subst n3. rewrite S3 in X2. inversion X2; subst k3. clear X1 X2.
      unfold prepare_accept_socket. destruct (s_add r) as [x|]; cbn [fst snd]; [split; [exact N4|]; cbn in E5; unfold SUCCESS; lia|].
      set (t0 := set_acc (Some (nsock s3)) (open_sock (endpoint s3) s3)). set (t := if pending t0 then set_stray (S (stray t0)) t0 else t0).
      assert (Ft : fd t = Some n) by (unfold t; destruct (pending t0); exact F3).
      assert (St : socks t = (nsock s3, fresh (endpoint s3)) :: socks s3) by (unfold t; destruct (pending t0); reflexivity).
      assert (Nt : numbered t). { unfold t. destruct (pending t0); apply (num_open (endpoint s3) s3 N4). }
      assert (Nn : Nat.eqb (nsock s3) n = false). { apply Nat.eqb_neq. pose proof (N4 n (find_in _ _ _ X3)). lia. }
      destruct (on_sock_cases (fd t) now_armed (s_arm r) t) as (K4 & _ & C4). destruct (on_sock (fd t) now_armed (s_arm r) t) as [e4 s4]. cbn [fst snd] in *.
      destruct (Z.eqb_spec e4 SUCCESS) as [->|NE]; cbn [fst snd]; [|split; [apply num_close, (kp_num _ _ K4), Nt | congruence]].
      split; [exact (kp_num _ _ K4 Nt)|]. intros _. destruct (C4 E6 eq_refl) as (n4 & k4 & X1 & X2 & X4). rewrite Ft in X1. inversion X1; subst n4.
      rewrite St in X2. cbn [find] in X2. rewrite Nn, X3 in X2. inversion X2; subst k4.
      exists n, (now_armed (now_listening (now_bound (now_reuse k)))). split; [cbn; rewrite (kp_fd _ _ K4); exact Ft|]. split; [exact X4|]. repeat split. }
  destruct (server_socket_accept p r s2) as [e3 s3]. cbn [fst snd] in A. destruct A as [A1 A2].
  destruct (Z.eqb_spec e3 SUCCESS) as [->|NE]; cbn [negb] in H; inversion H; subst; [auto|]. split; [apply num_sclose, A1 | congruence].
Qed.
Lemma num_reach p u s : reach p u s -> numbered s.
Proof.
  intros R. induction R as [j h|s a R IH E _]; [intros n []|]. destruct a as [c i|r|b|]; cbn [step].
  - pose proof (num_init p c i s IH) as X. destruct (http_server_init p c i s). exact X.
  - destruct (http_server_serve p r s) as [e s'] eqn:H. exact (proj1 (serve_cases p r s e s' IH E H)).
  - apply num_sclose. exact IH.
  - apply num_try. exact IH.
Qed.
(** In every history of any application with any errors: when cio_http_server_serve has just reported success, the socket is bound,
    listens, has its address reusable, and reports connections to the loop. *)
Theorem C77_serve_tells_the_truth : forall p s r, reach p anything s -> enabled p s (AServe r) ->
  forall l, tr (step p s (AServe r)) = EvServe SUCCESS :: l -> serves (step p s (AServe r)).
Proof.
  intros p s r R E l H. cbn [step] in *. destruct (http_server_serve p r s) as [e s'] eqn:X. cbn [tr log] in H. inversion H; subst e.
  destruct (serve_cases p r s _ s' (num_reach _ _ _ R) E X) as [_ Y]. destruct (Y eq_refl) as (n & k & Z). exists n, k. exact Z.
Qed.
Print Assumptions C77_serve_tells_the_truth.

(** ** Examples and witnesses *)
Fixpoint run (p : plat) (l : list act) (s : st) : st := match l with [] => s | a :: r => run p r (step p s a) end.
Fixpoint allowed (p : plat) (u : st -> act -> Prop) (l : list act) (s : st) : Prop :=
  match l with [] => True | a :: r => enabled p s a /\ u s a /\ allowed p u r (step p s a) end.
Lemma run_reach p u l : forall s, reach p u s -> allowed p u l s -> reach p u (run p l s).
Proof. induction l as [|a l IH]; intros s R A; [exact R|]. destruct A as (A1 & A2 & A3). apply IH; [now apply reach_step | exact A3]. Qed.
Definition cfg (a : fam) (fast : bool) : config := Config true 10000000000 a fast.
Definition init_ a fast := AInit (cfg a fast) all_fine.
Definition st0 := start 0 false.
Ltac at_run p l := exists (run p l st0); split; [apply run_reach; [constructor | vm_compute; repeat split; auto; try discriminate; intros; try discriminate; auto] |].
(** A whole life on Linux (on a UNIX socket, with fast open) after a failed one, and on Windows. *)
Example C77_a_life_on_linux : exists s, reach Linux (orderly Linux) s /\
  rev (tr s) = [EvInit SUCCESS; EvServe (-98); EvInit SUCCESS; EvServe SUCCESS; EvShutdown; EvHook] /\ socks s = [].
Proof. at_run Linux [init_ Inet6 false; AServe (SFate None None (Some 98) None None None); init_ (Unix true) true; AServe (SFate None (Some 2) None None None None); AShutdown true]. split; vm_compute; reflexivity. Qed.
Example C77_a_life_on_windows : exists s, reach Windows (orderly Windows) s /\
  rev (tr s) = [EvInit SUCCESS; EvServe SUCCESS; EvShutdown; EvHook] /\ socks s = [].
Proof. at_run Windows [init_ Inet4 true; AServe no_errors; AShutdown true; AAborted]. split; vm_compute; reflexivity. Qed.
(** VIOLATED: if TCP fast open is asked for and cannot be set - on Zephyr always - init fails and the socket stays open. *)
Theorem C77_fast_open_leak_refuted : forall p, exists s, reach p anything s /\ map fst (socks s) = [0%nat] /\ exists e, tr s = [EvInit e] /\ e < 0.
Proof.
  intros p. destruct p;
  [at_run Linux [AInit (cfg Inet4 true) (IFate None None None (Some 92))] | at_run Windows [AInit (cfg Inet4 true) (IFate None None None (Some 10042))] | at_run Zephyr [init_ Inet4 true]];
  (split; [vm_compute; reflexivity|]; eexists; split; [vm_compute; reflexivity|reflexivity]).
Qed.
Print Assumptions C77_fast_open_leak_refuted.
(** VIOLATED: an application that shuts down the server whose start failed: its socket is closed a second time. *)
Theorem C77_shutdown_after_failure_refuted : forall p, exists s, reach p anything s /\ stray s = 1%nat /\ exists e, rev (tr s) = [EvInit SUCCESS; EvServe e; EvShutdown; EvHook] /\ e < 0.
Proof.
  intros p. destruct p;
  [at_run Linux [init_ Inet4 false; AServe (SFate (Some 92) None None None None None); AShutdown true] | at_run Windows [init_ Inet4 false; AServe (SFate (Some 10042) None None None None None); AShutdown true] | at_run Zephyr [init_ Inet4 false; AServe no_errors; AShutdown true]];
  (split; [vm_compute; reflexivity|]; eexists; split; [vm_compute; reflexivity|reflexivity]).
Qed.
Print Assumptions C77_shutdown_after_failure_refuted.
(** VIOLATED: on Windows, when AcceptEx fails in serve, the socket prepared for it is closed twice. *)
Theorem C77_accept_ex_failure_refuted : exists s, reach Windows anything s /\ stray s = 1%nat /\ rev (tr s) = [EvInit SUCCESS; EvServe (-10055)].
Proof. at_run Windows [init_ Inet4 false; AServe (SFate None None None None None (Some 10055))]. split; vm_compute; reflexivity. Qed.
Print Assumptions C77_accept_ex_failure_refuted.
(** VIOLATED: on Windows, when WSAIoctl fails in init, the listening socket stays open if the memory of the server was not zero. *)
Theorem C77_ioctl_failure_refuted : exists s, reach Windows anything s /\ map fst (socks s) = [0%nat] /\ tr s = [EvInit (-10022)].
Proof.
  exists (run Windows [AInit (cfg Inet4 false) (IFate None None (Some 10022) None)] (start 1 false)). split; [|split; vm_compute; reflexivity].
  apply run_reach; [constructor | vm_compute; repeat split; auto].
Qed.
Print Assumptions C77_ioctl_failure_refuted.
(** VIOLATED: on Windows the port is still bound and listened on after shutdown, until the loop runs again. *)
Theorem C77_still_listening_refuted : exists s, reach Windows (orderly Windows) s /\ phase_of (tr s) = Stopping /\
  exists n k, socks s = [(n, k)] /\ k_bound k = true /\ k_listening k = true.
Proof. at_run Windows [init_ Inet4 false; AServe no_errors; AShutdown true]. split; [vm_compute; reflexivity|]. eexists _, _. split; [vm_compute; reflexivity|]. split; reflexivity. Qed.
Print Assumptions C77_still_listening_refuted.
