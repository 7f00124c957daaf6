(** Creating and destroying objects of the library leaves nothing behind (C57), every descriptor is non-blocking (C58),
    socket options reach the kernel (C59). *)
From Verif Require Import Base ResModel ResSpec ResProofs ResProofs2.
From Coq Require Import Permutation.
Set Warnings "-unused-intro-pattern".

(** ** What every function keeps *)
Definition keeps {A} (P : kernel -> Prop) (m : M A) : Prop := forall k, P k -> P (snd (m k)).
Lemma keeps_ret {A} P (a : A) : keeps P (ret a).
Proof. intros k H. exact H. Qed.
Lemma keeps_bind {A B} P (m : M A) (f : A -> M B) : keeps P m -> (forall a, keeps P (f a)) -> keeps P (bind m f).
Proof. intros Hm Hf k H. unfold bind. specialize (Hm k H). destruct (m k) as (a, k1). apply Hf, Hm. Qed.
Lemma keeps_if {A} P (b : bool) (m n : M A) : keeps P m -> keeps P n -> keeps P (if b then m else n).
Proof. destruct b; auto. Qed.

Definition in_order (d : desc) : Prop :=
  (d_kind d = KEpoll \/ d_nonblock d = true) /\ (d_kind d = KSocket -> d_cloexec d = true) /\
  (d_kind d = KSocket -> d_domain d = INET6 -> value V6Only (d_opts d) = Some 1%Z).
Definition well (k : kernel) : Prop := sane k /\ Forall (fun p => in_order (snd p)) (opened k).

Section Keep.
Variable fate : nat -> option Z.
Lemma well_upd k n c e st : newfd k <= n -> well k -> well (Kern (opened k) (watched k) n c e st).
Proof.
  intros N ((S1 & S2 & S3) & F). split; [|exact F]. split; [exact S1|]. split; [|exact S3]. intros fd H. cbn. specialize (S2 fd H). lia.
Qed.
Lemma keeps_plain fd : keeps well (sys_plain fate fd).
Proof. intros k H. unfold sys_plain. destruct (negb _); [now apply well_upd|]. destruct (fate _); now apply well_upd. Qed.
Lemma keeps_none : keeps well (sys_none fate).
Proof. intros k H. unfold sys_none. destruct (fate _); now apply well_upd. Qed.
Lemma keeps_minus : keeps well minus_errno.
Proof. intros k H. exact H. Qed.
Lemma keeps_or b : keeps well (or_errno b).
Proof. destruct b; intros k H; exact H. Qed.
Lemma keeps_opt fd o v : o <> V6Only -> keeps well (sys_setsockopt fate fd o v).
Proof.
  intros Ho k H. unfold sys_setsockopt. destruct (negb _); [now apply well_upd|]. destruct (fate _); [now apply well_upd|].
  destruct H as ((S1 & S2 & S3) & F). cbn.
  assert (E : map fst (map (add_opt fd o v) (opened k)) = map fst (opened k)) by (apply map_map_same, fst_add_opt).
  split; [unfold sane, fds in *; cbn; rewrite E; repeat split; try assumption; apply (S3 _ _ _ H)|].
  cbn. apply Forall_map. eapply Forall_impl; [|exact F]. intros (n, d) (A & B & C). unfold add_opt.
  destruct (Nat.eqb n fd); [|now repeat split]. unfold in_order. cbn. repeat split; [exact A | exact B|].
  intros K D. specialize (C K D). destruct o; try exact C. congruence.
Qed.
Lemma keeps_ctl ep fd c : keeps well (sys_epoll_ctl fate ep fd c).
Proof.
  intros k H. unfold sys_epoll_ctl. destruct (is_open k ep) eqn:E1; [|now apply well_upd]. destruct (is_open k fd) eqn:E2; [|now apply well_upd].
  cbn [negb]. destruct (fate _); [now apply well_upd|]. apply is_open_in in E1, E2.
  destruct c as [|b|], (is_watched k ep fd); cbn [negb]; try (now apply well_upd); destruct H as ((S1 & S2 & S3) & F);
    (split; [|exact F]); (split; [exact S1|]); (split; [exact S2|]); cbn; intros e f b' H.
  - destruct H as [H|H]; [|apply (S3 _ _ _ H)]. inversion H; subst. auto.
  - apply in_map_iff in H. destruct H as (((e0, f0), b0) & E & H). cbn in E.
    destruct (Nat.eqb e0 ep && Nat.eqb f0 fd)%bool; inversion E; subst; [auto | apply (S3 _ _ _ H)].
  - apply filter_In in H. apply (S3 _ _ _ (proj1 H)).
Qed.
Lemma keeps_close fd : keeps well (sys_close fate fd).
Proof.
  intros k H. unfold sys_close. destruct (negb _); [now apply well_upd|].
  assert (W : well (Kern (filter (fun p => negb (Nat.eqb (fst p) fd)) (opened k))
                   (filter (fun p => negb (Nat.eqb (fst (fst p)) fd) && negb (Nat.eqb (snd (fst p)) fd))%bool (watched k))
                   (newfd k) (S (calls k)) (errno k) (stray k))).
  { destruct H as (S & F). split.
    - eapply (gone_sane [fd] k); [exact S| |apply Nat.le_refl]. split; [|split; [|reflexivity]]; cbn.
      + apply filter_ext. intros p. now rewrite kept_one.
      + apply filter_ext. intros p. now rewrite !kept_one.
    - cbn. apply Forall_forall. intros p Hp. apply filter_In in Hp. rewrite Forall_forall in F. apply F, Hp. }
  destruct (fate _); [apply (well_upd _ _ _ _ _ (Nat.le_refl _) W) | exact W].
Qed.

Ltac keep :=
  repeat first
    [ apply keeps_ret | apply keeps_minus | apply keeps_or | apply keeps_plain | apply keeps_none | apply keeps_ctl | apply keeps_close
    | apply keeps_opt; discriminate | apply keeps_bind; [|intros ?] | apply keeps_if
    | match goal with |- keeps _ (match ?x with _ => _ end) => destruct x end ].
Lemma keep_listen v : keeps well (server_socket_accept fate v).
Proof. unfold server_socket_accept, eventloop_add, register_read. keep. Qed.
Lemma keep_reuse v b : keeps well (server_socket_set_reuse_address fate v b).
Proof. unfold server_socket_set_reuse_address. keep. Qed.
Lemma keep_fast v b : keeps well (server_socket_set_tcp_fast_open fate v b).
Proof. unfold server_socket_set_tcp_fast_open. keep. Qed.
Lemma keep_bind v f u : keeps well (server_socket_bind fate v f u).
Proof. unfold server_socket_bind. keep. Qed.
Lemma keep_close v : keeps well (server_socket_close fate v).
Proof. unfold server_socket_close, eventloop_remove. keep. Qed.
Lemma keep_serve c v : keeps well (http_server_serve fate c v).
Proof.
  unfold http_server_serve. apply keeps_bind; [apply keep_reuse|intros e1]. apply keeps_if; [apply keeps_bind; [apply keep_close|intros; apply keeps_ret]|].
  apply keeps_bind; [apply keep_bind|intros e2]. apply keeps_if; [apply keeps_bind; [apply keep_close|intros; apply keeps_ret]|].
  apply keeps_bind; [apply keep_listen|intros e3]. apply keeps_if; [apply keeps_bind; [apply keep_close|intros; apply keeps_ret]|]. apply keeps_ret.
Qed.
Lemma keep_nodelay s b : keeps well (socket_set_tcp_no_delay fate s b).
Proof. unfold socket_set_tcp_no_delay. keep. Qed.
Lemma keep_keepalive s b x y z : keeps well (socket_set_keep_alive fate s b x y z).
Proof. unfold socket_set_keep_alive. keep. Qed.
Lemma keep_timer_close t a : keeps well (timer_close fate t a).
Proof. unfold timer_close, eventloop_remove. keep. Qed.
Lemma keep_sock_close s r a : keeps well (socket_close fate s r a).
Proof.
  unfold socket_close, unregister_read, eventloop_remove.
  apply keeps_bind; [keep|intros _]. apply keeps_bind; [keep|intros _]. apply keeps_bind; [keep|intros _].
  apply keeps_bind; [apply keep_timer_close|intros _]. keep.
Qed.
Lemma keep_destroy l : keeps well (eventloop_destroy fate l).
Proof. unfold eventloop_destroy, unregister_read, eventloop_remove. keep. Qed.
End Keep.

(** ** The invariant of histories *)
Definition loops_live (w : world) : Prop :=
  forall o ep, In o (live w) -> In ep (uses o) -> exists l, In (ObLoop l) (live w) /\ l_ep l = ep.
Record inv (w : world) : Prop := Inv {
  i_well : well (kern w);
  i_stray : stray (kern w) = [];
  i_owned : Permutation (fds (kern w)) (flat_map owns (live w));
  i_loops : loops_live w }.

Lemma nth_drop {A} (l : list A) i a : nth_error l i = Some a -> Permutation l (a :: drop i l).
Proof.
  revert i. induction l as [|b l IH]; intros [|i] H; cbn in *; try discriminate.
  - injection H as ->. reflexivity.
  - rewrite (IH _ H) at 1. apply perm_swap.
Qed.
Lemma owned_open w o fd : inv w -> In o (live w) -> In fd (owns o) -> In fd (fds (kern w)).
Proof.
  intros I Ho Hfd. eapply Permutation_in; [apply Permutation_sym, (i_owned w I)|]. apply in_flat_map. eauto.
Qed.
Lemma used_open w o ep : inv w -> In o (live w) -> In ep (uses o) -> In ep (fds (kern w)).
Proof.
  intros I Ho Hep. destruct (i_loops w I o ep Ho Hep) as (l & Hl & <-). apply (owned_open w (ObLoop l) _ I Hl). cbn. auto.
Qed.
Lemma loop_open w l : inv w -> In (ObLoop l) (live w) -> In (l_ep l) (fds (kern w)).
Proof. intros I H. apply (owned_open w _ _ I H). cbn. auto. Qed.

Lemma loops_cons w k o : loops_live w -> (forall ep, In ep (uses o) -> exists l, In (ObLoop l) (live w) /\ l_ep l = ep) ->
  loops_live (World k (o :: live w)).
Proof.
  intros L H o' ep [<- | Ho] Hep; cbn.
  - destruct (H ep Hep) as (l & Hl & E). exists l. auto.
  - destruct (L o' ep Ho Hep) as (l & Hl & E). exists l. auto.
Qed.
(** A call that neither opens nor closes descriptors. *)
Lemma inv_same w k : inv w -> well k -> fds k = fds (kern w) -> stray k = stray (kern w) -> inv (World k (live w)).
Proof.
  intros [W S O L] Hw F St. split; cbn; [exact Hw | congruence | now rewrite F | exact L].
Qed.
Lemma inv_untouched w k : inv w -> untouched (kern w) k -> newfd (kern w) <= newfd k -> inv (World k (live w)).
Proof.
  intros I (O & W & ST) N. apply inv_same; [exact I| |unfold fds; now rewrite O | exact ST].
  destruct (i_well w I) as (S & F). split; [|now rewrite O]. eapply untouched_sane; [exact S|now repeat split|exact N].
Qed.
(** An object that gave back its descriptors. *)
Lemma inv_gone w i o k : inv w -> nth_error (live w) i = Some o -> well k -> gone (owns o) (kern w) k ->
  (forall o' l, In o' (drop i (live w)) -> o = ObLoop l -> ~ In (l_ep l) (uses o')) -> inv (World k (drop i (live w))).
Proof.
  intros [W S O L] Hn Hw G Hu. pose proof (nth_drop _ _ _ Hn) as P. split; cbn.
  - exact Hw.
  - destruct G as (_ & _ & ->). exact S.
  - rewrite P in O. cbn in O.
    assert (ND : NoDup (owns o ++ flat_map owns (drop i (live w)))).
    { eapply Permutation_NoDup; [exact O|]. apply W. }
    apply NoDup_Permutation; [apply Hw| |].
    + clear - ND. induction (owns o) as [|a l IH]; [exact ND|]. apply IH. now inversion ND.
    + intros x. rewrite (gone_fds _ _ _ x G). split.
      * intros [H1 H2]. apply (Permutation_in _ O) in H1. apply in_app_or in H1. tauto.
      * intros H. split; [apply (Permutation_in _ (Permutation_sym O)), in_or_app; auto|].
        intros H2. clear - ND H H2. induction (owns o) as [|a l IH]; [exact H2|]. cbn in ND. inversion ND; subst.
        destruct H2 as [<- | H2]; [|auto]. apply H3. apply in_or_app. auto.
  - intros o' ep Ho' Hep. assert (Hin : In o' (live w)).
    { eapply Permutation_in; [apply Permutation_sym, P|]. right. exact Ho'. }
    destruct (L o' ep Hin Hep) as (l & Hl & E). exists l. split; [|exact E].
    apply (Permutation_in _ P) in Hl. destruct Hl as [-> | Hl]; [|exact Hl].
    destruct (Hu o' l Ho' eq_refl). now rewrite E.
Qed.
(** A new object. *)
Lemma inv_new w k o new : inv w -> sane k -> opened k = new ++ opened (kern w) -> stray k = stray (kern w) ->
  Permutation (map fst new) (owns o) -> Forall (fun p => in_order (snd p)) new ->
  (forall ep, In ep (uses o) -> exists l, In (ObLoop l) (live w) /\ l_ep l = ep) -> inv (World k (o :: live w)).
Proof.
  intros [W S O L] Hs E ST P F Hu. split; cbn.
  - split; [exact Hs|]. rewrite E. apply Forall_app. split; [exact F | apply W].
  - congruence.
  - unfold fds in *. rewrite E, map_app. now apply Permutation_app.
  - apply (loops_cons w k o L Hu).
Qed.

Section Steps.
Variable fate : nat -> option Z.
Hypothesis Hreal : real fate.

Lemma timer_in_order : in_order (Desc KTimer true false 0 []).
Proof. repeat split; cbn; auto; discriminate. Qed.
Lemma sock_in_order f : in_order (sock_desc f).
Proof.
  repeat split; cbn; auto. intros _ ->. reflexivity.
Qed.
Lemma socket_made_inv w ep s k d : inv w -> in_order d -> (exists l, In (ObLoop l) (live w) /\ l_ep l = ep) ->
  socket_made d ep (kern w) s k -> inv (World k (ObSock s :: live w)).
Proof.
  intros I Hd Hl (E1 & E2 & E3 & N & O & W & ST).
  assert (Hep : In ep (fds (kern w))) by (destruct Hl as (l & Hl & <-); apply loop_open; assumption).
  destruct (i_well w I) as ((S1 & S2 & S3) & F).
  refine (inv_new w k (ObSock s) [(t_fd (s_timer s), _); (newfd (kern w), d)] I _ O ST _ _ _).
  - assert (F1 : ~ In (newfd (kern w)) (fds (kern w))) by (intros H; apply S2 in H; lia).
    assert (F2 : ~ In (t_fd (s_timer s)) (fds (kern w))) by (intros H; apply S2 in H; lia).
    unfold sane, fds in *. rewrite O, W. cbn. split; [|split].
    + constructor; [intros [H|H]; [lia | exact (F2 H)]|]. constructor; assumption.
    + intros fd [<- | [<- | H]]; [lia | lia|]. specialize (S2 _ H). lia.
    + intros a b c [H | [H | H]]; [inversion H; subst; rewrite ?E2; auto ..|]. destruct (S3 _ _ _ H). auto.
  - cbn. rewrite E2. reflexivity.
  - constructor; [apply timer_in_order|]. constructor; [exact Hd | constructor].
  - cbn. intros x [<- | [<- | []]]; rewrite ?E1, ?E3; exact Hl.
Qed.

Lemma step_inv w a : inv w -> orderly w a -> inv (step fate w a).
Proof.
  intros I Ho. pose proof (i_well w I) as [S F]. destruct a; cbn [step].
  - (* new loop *)
    pose proof (eventloop_init_spec fate Hreal (kern w) S) as R. destruct (eventloop_init fate (kern w)) as ((e, [l|]), k); cbn in *.
    + destruct R as (_ & N1 & N2 & O & W & ST). destruct S as (S1 & S2 & S3).
      refine (inv_new w k (ObLoop l) [(l_stop l, _); (l_ep l, _)] I _ O ST _ _ _).
      * assert (F1 : ~ In (l_stop l) (fds (kern w))) by (intros H; apply S2 in H; lia).
        assert (F2 : ~ In (l_ep l) (fds (kern w))) by (intros H; apply S2 in H; lia).
        unfold sane, fds in *. rewrite O, W. cbn. split; [|split].
        -- constructor; [intros [H|H]; [lia | exact (F1 H)]|]. constructor; assumption.
        -- intros fd [<- | [<- | H]]; [lia | lia|]. specialize (S2 _ H). lia.
        -- intros x y z [H | H]; [inversion H; subst; auto|]. destruct (S3 _ _ _ H). auto.
      * reflexivity.
      * constructor; [|constructor; [|constructor]]; (split; [cbn; auto|split; cbn; intros; discriminate]).
      * intros ep [].
    + destruct R as (_ & U & N). apply inv_untouched; assumption.
  - (* new timer *)
    cbn in Ho. assert (Hep : In ep (fds (kern w))) by (destruct Ho as (l & Hl & <-); apply loop_open; assumption).
    pose proof (timer_init_spec fate Hreal ep (kern w) S Hep) as R. destruct (timer_init fate ep (kern w)) as ((e, [t|]), k); cbn in *.
    + destruct R as (_ & -> & O & W & ST & N). pose proof (sane_fresh _ S) as F1. destruct S as (S1 & S2 & S3).
      refine (inv_new w k (ObTimer _) [(newfd (kern w), _)] I _ O ST _ _ _).
      * unfold sane, fds in *. rewrite O, W. cbn. split; [|split].
        -- constructor; assumption.
        -- intros fd [<- | H]; [lia|]. specialize (S2 _ H). lia.
        -- intros x y z [H | H]; [inversion H; subst; auto|]. destruct (S3 _ _ _ H). auto.
      * reflexivity.
      * constructor; [apply timer_in_order | constructor].
      * cbn. intros x [<- | []]. exact Ho.
    + destruct R as (_ & U & N). apply inv_untouched; assumption.
  - (* new socket *)
    cbn in Ho. assert (Hep : In ep (fds (kern w))) by (destruct Ho as (l & Hl & <-); apply loop_open; assumption).
    pose proof (socket_init_spec fate Hreal family ep (kern w) S Hep) as R.
    destruct (socket_init fate family ep (kern w)) as ((e, [s|]), k); cbn in *.
    + destruct R as (_ & _ & R). apply (socket_made_inv w ep s k (sock_desc family)); [exact I | apply sock_in_order | exact Ho | exact R].
    + destruct R as (_ & U & N). apply inv_untouched; assumption.
  - (* new server *)
    cbn in Ho. pose proof (server_init_spec fate Hreal family ep (kern w) S) as R.
    destruct (server_socket_init fate family ep (kern w)) as ((e, [v|]), k); cbn in *.
    + destruct R as (_ & _ & -> & O & W & ST & N).
      refine (inv_new w k (ObServer _) [(newfd (kern w), _)] I _ O ST _ _ _).
      * eapply new_sane; eassumption.
      * reflexivity.
      * constructor; [apply sock_in_order | constructor].
      * cbn. intros x [<- | []]. exact Ho.
    + destruct R as (_ & U & N). apply inv_untouched; assumption.
  - (* new HTTP server *)
    destruct Ho as [Hf Ho]. pose proof (http_init_spec fate Hreal c ep (kern w) S Hf) as R.
    destruct (http_server_init fate c ep (kern w)) as ((e, [v|]), k); cbn in *.
    + destruct R as (_ & -> & O & W & ST & N).
      refine (inv_new w k (ObHttp c _) [(newfd (kern w), _)] I _ O ST _ _ _).
      * eapply new_sane; eassumption.
      * reflexivity.
      * constructor; [apply sock_in_order | constructor].
      * cbn. intros x [<- | []]. exact Ho.
    + destruct R as (_ & U & N). apply inv_untouched; assumption.
  - (* listen *)
    destruct (nth_error (live w) i) as [o|] eqn:E; [|exact I]. destruct (server_of o) as [v|] eqn:Ev; [|exact I].
    apply nth_error_In in E. pose proof (keep_listen fate v (kern w) (i_well w I)) as K.
    destruct (listen_spec fate Hreal v (kern w)) as (e & k & E1 & T).
    { apply (used_open w o _ I E). destruct o; inversion Ev; subst; cbn; auto. }
    { apply (owned_open w o _ I E). destruct o; inversion Ev; subst; cbn; auto. }
    rewrite E1 in *. apply inv_same; [exact I | exact K | apply T | apply T].
  - (* serve *)
    destruct (nth_error (live w) i) as [[| | | |c v]|] eqn:E; try exact I.
    pose proof (nth_error_In _ _ E) as Hin. pose proof (keep_serve fate c v (kern w) (i_well w I)) as K.
    pose proof (serve_spec fate Hreal c v (kern w)) as R.
    destruct (http_server_serve fate c v (kern w)) as ((e, [v'|]), k).
    + destruct R as (_ & _ & T); [apply (used_open w _ _ I Hin); cbn; auto | apply (owned_open w _ _ I Hin); cbn; auto|].
      apply inv_same; [exact I | exact K | apply T | apply T].
    + destruct R as (_ & G & N); [apply (used_open w _ _ I Hin); cbn; auto | apply (owned_open w _ _ I Hin); cbn; auto|].
      apply (inv_gone w i (ObHttp c v) k); [exact I | exact E | exact K | exact G | intros; discriminate].
  - (* accept *)
    destruct (nth_error (live w) i) as [o|] eqn:E; [|exact I]. destruct (server_of o) as [v|] eqn:Ev; [|exact I].
    apply nth_error_In in E.
    assert (Hu : In (v_ep v) (uses o)) by (destruct o; inversion Ev; subst; cbn; auto).
    pose proof (accept_spec fate Hreal v (domain_of (kern w) (v_fd v)) mem (kern w) S (used_open w o _ I E Hu)) as R.
    destruct (accept_callback fate v _ mem (kern w)) as ((e, [s|]), k); cbn in *.
    + destruct R as (_ & R). eapply socket_made_inv; [exact I | apply sock_in_order | apply (i_loops w I o _ E Hu) | exact R].
    + destruct R as (_ & U & N). apply inv_untouched; assumption.
  - (* reuse *)
    destruct (nth_error (live w) i) as [o|] eqn:E; [|exact I]. destruct (server_of o) as [v|] eqn:Ev; [|exact I].
    apply nth_error_In in E. pose proof (keep_reuse fate v on (kern w) (i_well w I)) as K.
    destruct (opt_spec fate Hreal (v_fd v) ReuseAddr (if on then 1 else 0)%Z (kern w)) as (e & k & E1 & T).
    { apply (owned_open w o _ I E). destruct o; inversion Ev; subst; cbn; auto. }
    unfold server_socket_set_reuse_address in *. rewrite E1 in *. apply inv_same; [exact I | exact K | apply T | apply T].
  - (* fast open *)
    destruct (nth_error (live w) i) as [o|] eqn:E; [|exact I]. destruct (server_of o) as [v|] eqn:Ev; [|exact I].
    apply nth_error_In in E. pose proof (keep_fast fate v on (kern w) (i_well w I)) as K.
    destruct (opt_spec fate Hreal (v_fd v) FastOpen (if on then 5 else 0)%Z (kern w)) as (e & k & E1 & T).
    { apply (owned_open w o _ I E). destruct o; inversion Ev; subst; cbn; auto. }
    unfold server_socket_set_tcp_fast_open in *. rewrite E1 in *. apply inv_same; [exact I | exact K | apply T | apply T].
  - (* bind *)
    destruct (nth_error (live w) i) as [o|] eqn:E; [|exact I]. destruct (server_of o) as [v|] eqn:Ev; [|exact I].
    apply nth_error_In in E. pose proof (keep_bind fate v family uds (kern w) (i_well w I)) as K.
    destruct (bind_spec fate Hreal v family uds (kern w)) as (e & k & E1 & T).
    { apply (owned_open w o _ I E). destruct o; inversion Ev; subst; cbn; auto. }
    rewrite E1 in *. apply inv_same; [exact I | exact K | apply T | apply T].
  - (* no delay *)
    destruct (nth_error (live w) i) as [[| |s| |]|] eqn:E; try exact I.
    apply nth_error_In in E. pose proof (keep_nodelay fate s on (kern w) (i_well w I)) as K.
    destruct (opt_spec fate Hreal (s_fd s) NoDelay (if on then 1 else 0)%Z (kern w)) as (e & k & E1 & T).
    { apply (owned_open w _ _ I E). cbn. auto. }
    unfold socket_set_tcp_no_delay in *. rewrite E1 in *. apply inv_same; [exact I | exact K | apply T | apply T].
  - (* keep alive *)
    destruct (nth_error (live w) i) as [[| |s| |]|] eqn:E; try exact I.
    apply nth_error_In in E. pose proof (keep_keepalive fate s on a b c (kern w) (i_well w I)) as K.
    destruct (keep_alive_spec fate Hreal s on a b c (kern w)) as (e & k & E1 & T).
    { apply (owned_open w _ _ I E). cbn. auto. }
    rewrite E1 in *. apply inv_same; [exact I | exact K | apply T | apply T].
  - (* close *)
    cbn in Ho. destruct (nth_error (live w) i) as [o|] eqn:E; [|exact I].
    pose proof (nth_error_In _ _ E) as Hin. pose proof (fun fd => owned_open w o fd I Hin) as Own. pose proof (fun ep => used_open w o ep I Hin) as Use.
    assert (Q : forall o' l, In o' (drop i (live w)) -> o = ObLoop l -> ~ In (l_ep l) (uses o')).
    { intros o' l Ho' ->. apply Ho. eapply Permutation_in; [apply Permutation_sym, (nth_drop _ _ _ E)|]. right. exact Ho'. }
    assert (ND : NoDup (owns o)).
    { pose proof (i_owned w I) as P. rewrite (nth_drop _ _ _ E) in P. cbn in P.
      assert (N : NoDup (owns o ++ flat_map owns (drop i (live w)))) by (eapply Permutation_NoDup; [exact P | apply S]).
      clear - N. induction (owns o) as [|a l IH]; [constructor|]. cbn in N. inversion N; subst. constructor; [|auto].
      intros H. apply H1. apply in_or_app. auto. }
    destruct o as [l|t|s|v|c v]; cbn in Own, Use, ND.
    + pose proof (keep_destroy fate l (kern w) (i_well w I)) as K.
      destruct (destroy_spec fate Hreal l (kern w)) as (k & E1 & G & N); [auto | auto | inversion ND; subst; intros Heq; apply H1; left; auto|].
      rewrite E1 in *. apply (inv_gone w i (ObLoop l) k); assumption.
    + pose proof (keep_timer_close fate t armed (kern w) (i_well w I)) as K.
      destruct (timer_close_spec fate Hreal t armed (kern w)) as (k & E1 & G & N); [auto | auto|].
      rewrite E1 in *. apply (inv_gone w i (ObTimer t) k); assumption.
    + pose proof (keep_sock_close fate s rst armed (kern w) (i_well w I)) as K.
      destruct (socket_close_spec fate Hreal s rst armed (kern w)) as (k & E1 & G & N); [auto | auto | auto | auto | inversion ND; subst; intros Heq; apply H1; left; auto|].
      rewrite E1 in *. apply (inv_gone w i (ObSock s) k); assumption.
    + pose proof (keep_close fate v (kern w) (i_well w I)) as K.
      destruct (server_close_spec fate Hreal v (kern w)) as (k & E1 & G & N); [auto | auto|].
      rewrite E1 in *. apply (inv_gone w i (ObServer v) k); assumption.
    + pose proof (keep_close fate v (kern w) (i_well w I)) as K.
      destruct (server_close_spec fate Hreal v (kern w)) as (k & E1 & G & N); [auto | auto|].
      unfold http_server_shutdown, bind. rewrite E1 in *. apply (inv_gone w i (ObHttp c v) k); assumption.
Qed.
Lemma reach_invariant w : reach fate orderly w -> inv w.
Proof.
  induction 1 as [|w a R IH Ho]; [|apply step_inv; assumption].
  split; cbn; [|reflexivity|reflexivity|intros o ep []].
  split; [|constructor]. split; [constructor|]. split; intros; contradiction.
Qed.
End Steps.
