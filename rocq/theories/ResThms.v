(** The theorems of C57 (nothing is left behind), C58 (non-blocking descriptors) and C59 (socket options). *)
From Verif Require Import Base ResModel ResSpec ResProofs ResProofs2 ResProps.
From Coq Require Import Permutation.
Set Warnings "-unused-intro-pattern".

(** A run of the application. *)
Fixpoint run (fate : nat -> option Z) (l : list act) (w : world) : world :=
  match l with [] => w | a :: r => run fate r (step fate w a) end.
Fixpoint allowed (fate : nat -> option Z) (l : list act) (w : world) : Prop :=
  match l with [] => True | a :: r => orderly w a /\ allowed fate r (step fate w a) end.
Lemma run_reach fate l w : reach fate orderly w -> allowed fate l w -> reach fate orderly (run fate l w).
Proof. revert w. induction l as [|a l IH]; intros w R H; [exact R|]. destruct H as [H1 H2]. apply IH; [now constructor | exact H2]. Qed.
Definition all_well : nat -> option Z := fun _ => None.
(** All calls succeed, except those with the given numbers. *)
Definition fails (l : list nat) (n : nat) : option Z := if existsb (Nat.eqb n) l then Some 24%Z else None.
Lemma fails_real l : real (fails l).
Proof. intros n e. unfold fails. destruct (existsb _ _); intros H; inversion H. lia. Qed.

(** ** C57 *)
(** Whatever an orderly application creates and destroys, and whichever calls fail: the open descriptors are exactly those
    of the objects that exist, only open descriptors are watched, and no descriptor is used that is not open. *)
Theorem res_nothing_left_behind fate w : real fate -> reach fate orderly w ->
  Permutation (map fst (opened (kern w))) (flat_map owns (live w)) /\
  NoDup (map fst (opened (kern w))) /\
  (forall ep fd b, In (ep, fd, b) (watched (kern w)) -> In ep (map fst (opened (kern w))) /\ In fd (map fst (opened (kern w)))) /\
  stray (kern w) = [].
Proof.
  intros Hr R. destruct (reach_invariant fate Hr w R) as [((S1 & S2 & S3) & F) ST O L].
  split; [exact O|]. split; [exact S1|]. split; [exact S3 | exact ST].
Qed.
(** When all objects are destroyed, nothing is open and nothing is watched. *)
Theorem res_all_closed_at_the_end fate w : real fate -> reach fate orderly w -> live w = [] ->
  opened (kern w) = [] /\ watched (kern w) = [].
Proof.
  intros Hr R Hl. destruct (res_nothing_left_behind fate w Hr R) as (P & _ & W & _). rewrite Hl in P. cbn in P.
  apply Permutation_sym, Permutation_nil in P. assert (O : opened (kern w) = []) by (destruct (opened (kern w)); [reflexivity | discriminate]).
  split; [exact O|]. destruct (watched (kern w)) as [|((ep, fd), b) r]; [reflexivity|].
  destruct (W ep fd b (or_introl eq_refl)) as [H _]. rewrite P in H. destruct H.
Qed.

(** A constructor that reports an error leaves the kernel as it was; one that reports success delivers an object. *)
Definition clean {A} (k : kernel) (r : (Z * option A) * kernel) : Prop :=
  match r with ((e, oa), k') => (e = 0%Z <-> oa <> None) /\ (e <> 0%Z -> (e < 0)%Z /\ untouched k k') end.
Lemma made_clean {A} k r (Q : A -> kernel -> Prop) : made k r Q -> clean k r.
Proof.
  destruct r as ((e, [a|]), k'); cbn.
  - intros (-> & _). split; [split; [discriminate | reflexivity] | congruence].
  - intros (H & U & _). split; [split; [lia | congruence]|]. intros _. split; assumption.
Qed.
Theorem res_failed_init_leaves_nothing fate k ep f c v dom mem :
  real fate -> sane k -> In ep (map fst (opened k)) -> use_fastopen c = false -> In (v_ep v) (map fst (opened k)) ->
  clean k (eventloop_init fate k) /\ clean k (timer_init fate ep k) /\ clean k (socket_init fate f ep k) /\
  clean k (server_socket_init fate f ep k) /\ clean k (http_server_init fate c ep k) /\ clean k (accept_callback fate v dom mem k).
Proof.
  intros Hr S Hep Hf Hv.
  split; [eapply made_clean, eventloop_init_spec; assumption|].
  split; [eapply made_clean, timer_init_spec; assumption|].
  split; [eapply made_clean, socket_init_spec; assumption|].
  split; [eapply made_clean, server_init_spec; assumption|].
  split; [eapply made_clean, http_init_spec; assumption|].
  eapply made_clean, accept_spec; assumption.
Qed.
(** What a successful constructor adds: exactly these descriptors, these watches. *)
Theorem res_init_adds fate k ep f : real fate -> sane k -> In ep (map fst (opened k)) ->
  (forall e l k', eventloop_init fate k = ((e, Some l), k') ->
     opened k' = (l_stop l, Desc KEvent true false 0 []) :: (l_ep l, Desc KEpoll false true 0 []) :: opened k /\
     watched k' = (l_ep l, l_stop l, true) :: watched k) /\
  (forall e t k', timer_init fate ep k = ((e, Some t), k') ->
     t_ep t = ep /\ opened k' = (t_fd t, Desc KTimer true false 0 []) :: opened k /\ watched k' = (ep, t_fd t, true) :: watched k) /\
  (forall e s k', socket_init fate f ep k = ((e, Some s), k') ->
     f <> UNSPEC /\ s_ep s = ep /\
     opened k' = (t_fd (s_timer s), Desc KTimer true false 0 []) ::
       (s_fd s, Desc KSocket true true f (if Z.eqb f INET6 then [(V6Only, 1%Z)] else [])) :: opened k /\
     watched k' = (ep, s_fd s, false) :: (ep, t_fd (s_timer s), true) :: watched k) /\
  (forall e v k', server_socket_init fate f ep k = ((e, Some v), k') ->
     f <> UNSPEC /\ v_ep v = ep /\
     opened k' = (v_fd v, Desc KSocket true true f (if Z.eqb f INET6 then [(V6Only, 1%Z)] else [])) :: opened k /\ watched k' = watched k).
Proof.
  intros Hr S Hep. split; [|split; [|split]].
  - intros e l k' H. pose proof (eventloop_init_spec fate Hr k S) as R. rewrite H in R. destruct R as (_ & _ & _ & R1 & R2 & _). auto.
  - intros e t k' H. pose proof (timer_init_spec fate Hr ep k S Hep) as R. rewrite H in R. destruct R as (_ & -> & R1 & R2 & _). auto.
  - intros e s k' H. pose proof (socket_init_spec fate Hr f ep k S Hep) as R. rewrite H in R.
    destruct R as (_ & R0 & R3 & R4 & R5 & R6 & R1 & R2 & _). split; [exact R0|]. split; [exact R3|]. split; [rewrite R4; exact R1 | exact R2].
  - intros e v k' H. pose proof (server_init_spec fate Hr f ep k S) as R. rewrite H in R. destruct R as (_ & R0 & -> & R1 & R2 & _). auto.
Qed.
(** A server that cannot start serving gives its descriptor back. *)
Theorem res_failed_serve_closes fate c v k e k' : real fate -> In (v_ep v) (map fst (opened k)) -> In (v_fd v) (map fst (opened k)) ->
  http_server_serve fate c v k = ((e, None), k') -> e <> 0%Z /\ gone [v_fd v] k k'.
Proof.
  intros Hr H1 H2 E. pose proof (serve_spec fate Hr c v k H1 H2) as R. rewrite E in R. tauto.
Qed.

(** The serial port: a failure of tcgetattr, i.e. of the second call, leaves the descriptor open; every other failure leaves
    nothing behind. *)
Theorem res_failed_uart_init_partial fate k ep e k' : real fate -> sane k -> In ep (map fst (opened k)) ->
  uart_init fate ep k = ((e, None), k') ->
  (e < 0)%Z /\
  (fate (calls k) <> None \/ fate (S (calls k)) = None -> untouched k k') /\
  (fate (calls k) = None -> fate (S (calls k)) <> None -> opened k' = (newfd k, Desc KTty true true 0 []) :: opened k).
Proof.
  intros Hr S Hep H. unfold uart_init in H. unfold bind at 1 in H.
  destruct (create_spec fate Hr (Desc KTty true true 0 []) k) as [(e1 & k1 & E & U & N & Ee & P) | (k1 & E & O & W & ST & N)]; rewrite E in H.
  { cbn in H. inversion H; subst. split; [lia|]. split; [intros _; exact U|]. intros H0. unfold sys_create in E. rewrite H0 in E. discriminate. }
  assert (F0 : fate (calls k) = None).
  { unfold sys_create in E. destruct (fate (calls k)); [discriminate | reflexivity]. }
  assert (C1 : calls k1 = Datatypes.S (calls k)).
  { unfold sys_create in E. rewrite F0 in E. inversion E. reflexivity. }
  assert (WN : with_new (Desc KTty true true 0 []) k k1) by (repeat split; assumption).
  assert (Hfd : In (newfd k) (fds k1)) by (unfold fds; rewrite O; left; reflexivity).
  assert (Hep1 : In ep (fds k1)) by (unfold fds; rewrite O; right; exact Hep).
  assert (NW : is_watched k1 ep (newfd k) = false).
  { rewrite <- (sane_unwatched k ep S). unfold is_watched. now rewrite W. }
  unfold bind at 1 in H. destruct (plain_spec fate Hr (newfd k) k1 Hfd) as (b2 & k2 & E2 & U2 & N2 & P2). rewrite E2 in H.
  assert (B2 : b2 = true <-> fate (Datatypes.S (calls k)) = None).
  { unfold sys_plain in E2. apply is_open_in in Hfd. rewrite Hfd, C1 in E2. cbn [negb] in E2.
    destruct (fate (Datatypes.S (calls k))); inversion E2; subst; split; congruence. }
  assert (T2 : touch (newfd k) k1 k2) by (apply untouched_touch; [exact U2 | lia]).
  destruct b2; cbn [negb] in H.
  2:{ cbn in H. inversion H; subst. split; [specialize (P2 eq_refl); lia|].
      assert (Q : fate (Datatypes.S (calls k)) <> None) by (intros Q; apply B2 in Q; discriminate).
      split; [intros [X|X]; congruence|]. intros _ _. destruct U2 as (-> & _). exact O. }
  (* from here on every failure closes the new descriptor, which was only touched *)
  assert (F1 : fate (Datatypes.S (calls k)) = None) by (apply B2; reflexivity).
  enough (G : (e < 0)%Z /\ untouched k k').
  { destruct G as [G1 G2]. split; [exact G1|]. split; [intros _; exact G2 | congruence]. }
  assert (B : forall e0 k3, touch (newfd k) k1 k3 -> (e0 < 0)%Z ->
    bind (sys_close fate (newfd k)) (fun _ => ret (e0, @None port)) k3 = ((e, None), k') -> (e < 0)%Z /\ untouched k k').
  { intros e0 k3 T3 He HH. destruct (close_new fate Hr _ k k1 k3 S WN T3) as (k4 & E4 & U4 & N4 & _). unfold bind in HH. rewrite E4 in HH.
    inversion HH; subst. auto. }
  unfold bind at 1 in H. destruct (none_spec fate Hr k2) as (b3 & k3 & E3 & U3 & N3 & P3). rewrite E3 in H.
  assert (T3 : touch (newfd k) k1 k3) by (eapply touch_trans; [exact T2|]; apply untouched_touch; [exact U3 | lia]).
  destruct b3; cbn [negb] in H.
  2:{ unfold bind at 1 in H. cbn [minus_errno] in H. eapply (B (- errno k3)%Z k3); [exact T3 | specialize (P3 eq_refl); lia | exact H]. }
  unfold bind at 1 in H. destruct (plain_spec fate Hr (newfd k) k3) as (b4 & k4 & E4 & U4 & N4 & P4); [rewrite (proj1 T3); exact Hfd|]. rewrite E4 in H.
  assert (T4 : touch (newfd k) k1 k4) by (eapply touch_trans; [exact T3|]; apply untouched_touch; [exact U4 | lia]).
  unfold bind at 1 in H.
  assert (X : exists e5 k5, (let '(a, k'0) := or_errno b4 k4 in
     (bind (if negb (Z.eqb a CIO_SUCCESS) then ret a else bind (sys_plain fate (newfd k)) (fun b => or_errno b)) (fun e5 => ret e5)) k'0) = (e5, k5) /\
     touch (newfd k) k1 k5 /\ (e5 = 0%Z \/ (e5 < 0)%Z)).
  { destruct b4; cbn [or_errno ret].
    - cbn [Z.eqb CIO_SUCCESS negb]. destruct (plain_spec fate Hr (newfd k) k4) as (b5 & k5 & E5 & U5 & N5 & P5); [rewrite (proj1 T4); exact Hfd|].
      assert (T5 : touch (newfd k) k1 k5) by (eapply touch_trans; [exact T4|]; apply untouched_touch; [exact U5 | lia]).
      unfold bind. rewrite E5. destruct b5; cbn.
      + exists 0%Z, k5. auto.
      + do 2 eexists. split; [reflexivity|]. split; [exact T5|]. right. specialize (P5 eq_refl). lia.
    - unfold minus_errno, bind. specialize (P4 eq_refl). rewrite (neg_neq (- errno k4)); [|lia]. cbn.
      do 2 eexists. split; [reflexivity|]. split; [exact T4|]. right. lia. }
  destruct X as (e5 & k5 & E5 & T5 & D5).
  destruct (or_errno b4 k4) as (a4, k4') eqn:Eo. unfold bind at 1 in E5. unfold bind at 1 in H.
  match type of H with (let '(x, y) := ?z in _) = _ => destruct z as (a5, k5') eqn:Ez end.
  cbn in E5. inversion E5; subst a5 k5'. clear E5.
  destruct D5 as [-> | D5].
  2:{ rewrite (neg_neq _ D5) in H. cbn [negb] in H. eapply B; eassumption. }
  cbn [Z.eqb CIO_SUCCESS negb] in H.
  assert (W5 : watched k5 = watched k1).
  { assert (A : watched k4 = watched k1) by (rewrite (proj1 (proj2 U4)), (proj1 (proj2 U3)), (proj1 (proj2 U2)); reflexivity).
    assert (A' : k4' = k4) by (destruct b4; cbn in Eo; inversion Eo; reflexivity). subst k4'.
    destruct (negb (Z.eqb a4 CIO_SUCCESS)).
    - inversion Ez; subst. exact A.
    - unfold bind in Ez. destruct (plain_spec fate Hr (newfd k) k4) as (b6 & k6 & E6 & U6 & _); [rewrite (proj1 T4); exact Hfd|].
      rewrite E6 in Ez. destruct b6; cbn in Ez; inversion Ez; subst; rewrite (proj1 (proj2 U6)); exact A. }
  unfold bind at 1 in H.
  destruct (add_spec fate Hr ep (newfd k) k5) as (e6 & k6 & E6 & T6 & O6 & C6); [rewrite (proj1 T5); assumption ..| |].
  { unfold is_watched in *. rewrite W5. exact NW. }
  rewrite E6 in H. pose proof (touch_trans _ _ _ _ T5 T6) as T16. destruct C6 as [[-> W6] | [P6 W6]].
  2:{ rewrite (neg_neq _ P6) in H. cbn [negb] in H. eapply B; eassumption. }
  cbn [Z.eqb CIO_SUCCESS negb] in H. unfold bind at 1 in H.
  destruct (register_spec fate Hr ep (newfd k) false (watched k5) k6) as (e7 & k7 & E7 & T7 & O7 & C7).
  { rewrite (proj1 T16). exact Hep1. }
  { rewrite (proj1 T16). exact Hfd. }
  { exact W6. }
  { intros x f b Hin ->. rewrite W5, W in Hin. destruct S as (_ & Sa & Sb). destruct (Sb _ _ _ Hin) as [_ Sc]. apply Sa in Sc. lia. }
  rewrite E7 in H. pose proof (touch_trans _ _ _ _ T16 T7) as T17. destruct C7 as [[-> W7] | [P7 W7]].
  { cbn in H. discriminate. }
  rewrite (neg_neq _ P7) in H. cbn [negb] in H. unfold bind at 1 in H.
  destruct (remove_spec fate Hr ep (newfd k) k7) as (k8 & E8 & T8); [rewrite (proj1 T17); assumption ..|]. rewrite E8 in H.
  eapply B; [exact (touch_trans _ _ _ _ T17 T8) | exact P7 | exact H].
Qed.

(** VIOLATED for cio_uart_init: tcgetattr fails, e.g. because the device is no terminal, and the descriptor stays open. *)
Theorem res_uart_init_leaks_refuted :
  exists fate k ep, real fate /\ sane k /\ In ep (map fst (opened k)) /\
    let r := uart_init fate ep k in (fst (fst r) < 0)%Z /\ length (opened (snd r)) = S (length (opened k)).
Proof.
  exists (fails [5]), (kern (run all_well [ANewLoop] start)), 3. split; [apply fails_real|]. split.
  - assert (R : reach all_well orderly (run all_well [ANewLoop] start)) by (apply run_reach; [constructor | cbn; auto]).
    apply (reach_invariant all_well) in R; [apply (proj1 (i_well _ R))|]. intros n e H. discriminate.
  - split; [vm_compute; auto|]. vm_compute. auto.
Qed.
(** VIOLATED for cio_http_server_init: TCP fast open cannot be set, and the listening descriptor stays open. *)
Theorem res_http_init_leaks_refuted :
  exists fate k ep c, real fate /\ sane k /\ In ep (map fst (opened k)) /\
    let r := http_server_init fate c ep k in (fst (fst r) < 0)%Z /\ length (opened (snd r)) = S (length (opened k)).
Proof.
  exists (fails [5]), (kern (run all_well [ANewLoop] start)), 3, (HttpConfig true 1000000000 1000000000 1000000000 INET4 false true).
  split; [apply fails_real|]. split.
  - assert (R : reach all_well orderly (run all_well [ANewLoop] start)) by (apply run_reach; [constructor | cbn; auto]).
    apply (reach_invariant all_well) in R; [apply (proj1 (i_well _ R))|]. intros n e H. discriminate.
  - split; [vm_compute; auto|]. vm_compute. auto.
Qed.
(** VIOLATED by an application that shuts down the server whose start failed: its descriptor is closed a second time. *)
Theorem res_shutdown_after_failed_serve_refuted :
  exists fate c v k, real fate /\ In (v_ep v) (map fst (opened k)) /\ In (v_fd v) (map fst (opened k)) /\ stray k = [] /\
    let r := http_server_serve fate c v k in
    fst (fst r) <> 0%Z /\ stray (snd r) = [] /\ stray (snd (http_server_shutdown fate v (snd r))) <> [].
Proof.
  set (c := HttpConfig true 1000000000 1000000000 1000000000 INET4 false false).
  exists (fails [6]), c, (Server 3 5), (kern (run all_well [ANewLoop; ANewHttp c 3] start)).
  split; [apply fails_real|]. split; [vm_compute; auto|]. split; [vm_compute; auto|]. split; [reflexivity|].
  vm_compute. split; [discriminate|]. split; [reflexivity | discriminate].
Qed.
(** A non-trivial history with failing calls: a loop, a timer, an IPv6 client whose initialisation fails once, a server with one accepted
    connection, all closed again. *)
Definition small_history : list act :=
  [ANewLoop; ANewTimer 3; ANewSocket INET6 3; ANewSocket INET6 3; ANewServer INET6 3; AReuse 0 true; AListen 0; AAccept 0 true;
   AAccept 1 false; AClose 0 true true; AClose 0 false false; AClose 1 false true; AClose 0 false false; AClose 0 false false].
Definition loopb (ep : nat) (w : world) : bool := existsb (fun o => match o with ObLoop l => Nat.eqb (l_ep l) ep | _ => false end) (live w).
Lemma loopb_ok ep w : loopb ep w = true -> exists l, In (ObLoop l) (live w) /\ l_ep l = ep.
Proof. unfold loopb. rewrite existsb_exists. intros ([l| | | |] & Hin & E); try discriminate. exists l. split; [exact Hin | now apply Nat.eqb_eq]. Qed.
Definition orderlyb (w : world) (a : act) : bool :=
  match a with
  | ANewTimer ep | ANewSocket _ ep | ANewServer _ ep => loopb ep w
  | ANewHttp c ep => negb (use_fastopen c) && loopb ep w
  | AClose i _ _ => match nth_error (live w) i with
    | Some (ObLoop l) => forallb (fun o => negb (existsb (Nat.eqb (l_ep l)) (uses o))) (live w)
    | _ => true
    end
  | _ => true
  end%bool.
Lemma orderlyb_ok w a : orderlyb w a = true -> orderly w a.
Proof.
  destruct a; cbn; try (intros; exact I); try apply loopb_ok.
  - intros H. apply Bool.andb_true_iff in H. destruct H as [H1 H2]. split; [now apply Bool.negb_true_iff | now apply loopb_ok].
  - destruct (nth_error (live w) i) as [[l| | | |]|]; try (intros; exact I). rewrite forallb_forall. intros H o Ho Hin.
    specialize (H o Ho). apply Bool.negb_true_iff, Bool.not_true_iff_false in H. apply H. apply existsb_exists.
    exists (l_ep l). split; [exact Hin | apply Nat.eqb_refl].
Qed.
Fixpoint allowedb (fate : nat -> option Z) (l : list act) (w : world) : bool :=
  match l with [] => true | a :: r => orderlyb w a && allowedb fate r (step fate w a) end%bool.
Lemma allowedb_ok fate l w : allowedb fate l w = true -> allowed fate l w.
Proof.
  revert w. induction l as [|a l IH]; intros w H; [exact I|]. cbn [allowedb] in H. apply Bool.andb_true_iff in H. destruct H as [H1 H2].
  split; [now apply orderlyb_ok | now apply IH].
Qed.
Example small_history_allowed : allowed (fails [9]) small_history start.
Proof. apply allowedb_ok. vm_compute. reflexivity. Qed.
Example small_history_ends : length (live (run (fails [9]) (firstn 9 small_history) start)) = 5 /\
  live (run (fails [9]) small_history start) = [].
Proof. vm_compute. auto. Qed.

(** ** C58 *)
(** In every history all descriptors except the epoll instances themselves are non-blocking, so that no call in a callback can block the
    event loop; sockets, also accepted ones, are not inherited by other programs. *)
Theorem res_descriptors_never_block fate w fd d : real fate -> reach fate orderly w -> In (fd, d) (opened (kern w)) ->
  (d_kind d = KEpoll \/ d_nonblock d = true) /\ (d_kind d = KSocket -> d_cloexec d = true).
Proof.
  intros Hr R Hin. destruct (reach_invariant fate Hr w R) as [(_ & F) _ _ _]. rewrite Forall_forall in F. specialize (F _ Hin).
  destruct F as (A & B & _). auto.
Qed.
(** A serial port is opened non-blocking, too. *)
Theorem res_uart_never_blocks fate k ep e p k' : uart_init fate ep k = ((e, Some p), k') -> forall d, In (p_fd p, d) (opened k') ->
  ~ In (p_fd p) (map fst (opened k)) -> d_nonblock d = true /\ d_cloexec d = true.
Proof.
  intros H d Hd Hn.
  unfold uart_init, bind at 1 in H. unfold sys_create in H at 1. destruct (fate (calls k)) eqn:F0; [cbn in H; discriminate|].
  match type of H with ?f ?k0 = _ => set (k1 := k0) in H end.
  assert (Same : forall fd k0, opened (snd (sys_plain fate fd k0)) = opened k0).
  { intros fd k0. unfold sys_plain. destruct (negb (is_open k0 fd)); [reflexivity|]. destruct (fate (calls k0)); reflexivity. }
  assert (Same2 : forall k0, opened (snd (sys_none fate k0)) = opened k0).
  { intros k0. unfold sys_none. destruct (fate (calls k0)); reflexivity. }
  assert (Same3 : forall a b c k0, opened (snd (sys_epoll_ctl fate a b c k0)) = opened k0).
  { intros a b c k0. unfold sys_epoll_ctl. destruct (negb (is_open k0 a)); [reflexivity|]. destruct (negb (is_open k0 b)); [reflexivity|]. destruct (fate (calls k0)); [reflexivity|].
    destruct c, (is_watched k0 a b); reflexivity. }
  assert (Same4 : forall b k0, opened (snd (or_errno b k0)) = opened k0) by (intros [|] k0; reflexivity).
  pose proof (Same (newfd k) k1) as O2. unfold bind at 1 in H. destruct (sys_plain fate (newfd k) k1) as ([|], k2); cbn [negb snd] in *; [|cbn in H; discriminate].
  pose proof (Same2 k2) as O3. unfold bind at 1 in H. destruct (sys_none fate k2) as ([|], k3); cbn [negb snd] in *;
    [|unfold bind in H; destruct (sys_close fate (newfd k) k3) in H; cbn in H; destruct (sys_close fate (newfd k) k3); discriminate].
  pose proof (Same (newfd k) k3) as O4. unfold bind at 1 in H. destruct (sys_plain fate (newfd k) k3) as (b4, k4); cbn [snd] in *.
  pose proof (Same4 b4 k4) as O5. unfold bind at 1 in H. destruct (or_errno b4 k4) as (e5, k5); cbn [snd] in *.
  assert (O6 : opened (snd ((if negb (Z.eqb e5 CIO_SUCCESS) then ret e5 else bind (sys_plain fate (newfd k)) (fun b => or_errno b)) k5)) = opened k5).
  { destruct (negb _); [reflexivity|]. unfold bind. pose proof (Same (newfd k) k5) as Q. destruct (sys_plain fate (newfd k) k5) as (b, k6). rewrite Same4. exact Q. }
  unfold bind at 1 in H. destruct ((if negb (Z.eqb e5 CIO_SUCCESS) then ret e5 else bind (sys_plain fate (newfd k)) (fun b => or_errno b)) k5) as (e6, k6); cbn [snd] in *.
  destruct (Z.eqb e6 CIO_SUCCESS); cbn [negb] in H;
    [|unfold bind in H; destruct (sys_close fate (newfd k) k6); discriminate].
  assert (O7 : opened (snd (eventloop_add fate ep (newfd k) k6)) = opened k6).
  { unfold eventloop_add, bind. pose proof (Same3 ep (newfd k) CtlAdd k6) as Q. destruct (sys_epoll_ctl fate ep (newfd k) CtlAdd k6) as (b, k7). rewrite Same4. exact Q. }
  unfold bind at 1 in H. destruct (eventloop_add fate ep (newfd k) k6) as (e7, k7); cbn [snd] in *.
  destruct (Z.eqb e7 CIO_SUCCESS); cbn [negb] in H;
    [|unfold bind in H; destruct (sys_close fate (newfd k) k7); discriminate].
  assert (O8 : opened (snd (register_read fate ep (newfd k) k7)) = opened k7).
  { unfold register_read, bind. pose proof (Same3 ep (newfd k) (CtlMod true) k7) as Q. destruct (sys_epoll_ctl fate ep (newfd k) (CtlMod true) k7) as (b, k8). rewrite Same4. exact Q. }
  unfold bind at 1 in H. destruct (register_read fate ep (newfd k) k7) as (e8, k8); cbn [snd] in *.
  destruct (Z.eqb e8 CIO_SUCCESS); cbn [negb] in H.
  - cbn in H. inversion H; subst. cbn in Hd, Hn. rewrite O8, O7, O6, O5, O4, O3, O2 in Hd. cbn in Hd. destruct Hd as [E|Hd].
    + inversion E; subst. auto.
    + destruct Hn. apply in_map_iff. now exists (newfd k, d).
  - unfold bind in H. destruct (eventloop_remove fate ep (newfd k) k8) as (u, k9). destruct (sys_close fate (newfd k) k9). discriminate.
Qed.
(** VIOLATED for inheritance: the descriptors of timers, and the one that stops the event loop, are inherited by every program the
    application starts. *)
Theorem res_timer_inherited_refuted :
  exists fate w, real fate /\ reach fate orderly w /\
    (exists fd d, In (fd, d) (opened (kern w)) /\ d_kind d = KTimer /\ d_cloexec d = false) /\
    (exists fd d, In (fd, d) (opened (kern w)) /\ d_kind d = KEvent /\ d_cloexec d = false).
Proof.
  exists all_well, (run all_well [ANewLoop; ANewTimer 3] start). split; [intros n e H; discriminate|]. split.
  - apply run_reach; [constructor|]. apply allowedb_ok. vm_compute. reflexivity.
  - split.
    + exists 5, (Desc KTimer true false 0 []). split; [vm_compute; auto | auto].
    + exists 4, (Desc KEvent true false 0 []). split; [vm_compute; auto | auto].
Qed.

(** ** C59 *)
Lemma find_add fd o v l : find_fd fd (map (add_opt fd o v) l) =
  option_map (fun d => Desc (d_kind d) (d_nonblock d) (d_cloexec d) (d_domain d) ((o, v) :: d_opts d)) (find_fd fd l).
Proof.
  induction l as [|(n, d) l IH]; [reflexivity|]. cbn. destruct (Nat.eqb n fd) eqn:E; cbn; rewrite E; [reflexivity | exact IH].
Qed.
Lemma find_open fd l : In fd (map fst l) -> exists d, find_fd fd l = Some d.
Proof.
  induction l as [|(n, d) l IH]; [intros []|]. cbn. intros [-> | H]; [rewrite Nat.eqb_refl; eauto|].
  destruct (Nat.eqb n fd); eauto.
Qed.
(** One call of setsockopt. *)
Lemma setopt_value fate fd o v k : real fate -> In fd (fds k) ->
  exists b k', sys_setsockopt fate fd o v k = (b, k') /\ In fd (fds k') /\ (b = false -> (0 < errno k')%Z) /\
    (forall o', option_of k' fd o' =
      if b then (match value o' [(o, v)] with Some x => Some x | None => option_of k fd o' end) else option_of k fd o').
Proof.
  intros Hr H. destruct (sockopt_spec fate Hr fd o v k H) as (b & k' & E & T & O & W & P). exists b, k'.
  split; [exact E|]. split; [rewrite (proj1 T); exact H|]. split; [exact P|]. intros o'. unfold option_of. rewrite O.
  destruct b; [|reflexivity]. rewrite find_add. destruct (find_open fd (opened k) H) as (d & ->). cbn. destruct o', o; reflexivity.
Qed.
(** A function that sets one option: success means the kernel has the value, an error means that it has the old one. *)
Definition sets (fd : nat) (o : sockopt) (v : Z) (k : kernel) (r : Z * kernel) : Prop :=
  (fst r = 0%Z -> option_of (snd r) fd o = Some v) /\
  (fst r <> 0%Z -> (fst r < 0)%Z /\ option_of (snd r) fd o = option_of k fd o) /\
  (forall o', o' <> o -> option_of (snd r) fd o' = option_of k fd o').
Lemma set_one fate fd o v k : real fate -> In fd (fds k) -> sets fd o v k (bind (sys_setsockopt fate fd o v) (fun b => or_errno b) k).
Proof.
  intros Hr H. destruct (setopt_value fate fd o v k Hr H) as (b & k' & E & _ & P & V). unfold sets, bind. rewrite E.
  destruct b; cbn.
  - split; [intros _; rewrite V; destruct o; reflexivity|]. split; [intros Q; exfalso; apply Q; reflexivity|]. intros o' Ho. rewrite V. destruct o', o; try reflexivity; congruence.
  - specialize (P eq_refl). split; [lia|]. split; [intros _; split; [lia | apply V]|]. intros o' _. apply V.
Qed.
Theorem res_options_reach_the_kernel fate k s v (on : bool) : real fate -> In (s_fd s) (map fst (opened k)) -> In (v_fd v) (map fst (opened k)) ->
  sets (s_fd s) NoDelay (if on then 1 else 0)%Z k (socket_set_tcp_no_delay fate s on k) /\
  sets (s_fd s) FastOpenConnect (if on then 1 else 0)%Z k (socket_set_tcp_fast_open fate s on k) /\
  sets (v_fd v) ReuseAddr (if on then 1 else 0)%Z k (server_socket_set_reuse_address fate v on k) /\
  sets (v_fd v) FastOpen (if on then 5 else 0)%Z k (server_socket_set_tcp_fast_open fate v on k).
Proof.
  intros Hr H1 H2. repeat match goal with |- _ /\ _ => split; [apply set_one; assumption|] end. apply set_one; assumption.
Qed.
(** Keep-alive: success means that probes are on, with the three given parameters, or off; an error means that on or off is as before. *)
Theorem res_keep_alive_reaches_the_kernel fate k s (on : bool) idle intvl cnt e k' : real fate -> In (s_fd s) (map fst (opened k)) ->
  socket_set_keep_alive fate s on idle intvl cnt k = (e, k') ->
  (e = 0%Z -> option_of k' (s_fd s) KeepAlive = Some (if on then 1 else 0)%Z /\
     (on = true -> option_of k' (s_fd s) KeepIdle = Some idle /\ option_of k' (s_fd s) KeepIntvl = Some intvl /\ option_of k' (s_fd s) KeepCnt = Some cnt)) /\
  (e <> 0%Z -> (e < 0)%Z /\ option_of k' (s_fd s) KeepAlive = option_of k (s_fd s) KeepAlive) /\
  (forall o, ~ In o [KeepAlive; KeepIdle; KeepIntvl; KeepCnt] -> option_of k' (s_fd s) o = option_of k (s_fd s) o).
Proof.
  intros Hr H0 H. unfold socket_set_keep_alive in H. destruct on.
  2:{ destruct (set_one fate (s_fd s) KeepAlive 0 k Hr H0) as (A & B & C). rewrite H in A, B, C. cbn in A, B, C.
      split; [intros E; split; [apply A, E | discriminate]|]. split; [exact B|]. intros o Ho. apply C. intros ->. apply Ho. cbn. auto. }
  assert (L : forall o, ~ In o [KeepAlive; KeepIdle; KeepIntvl; KeepCnt] -> forall x, value o [(KeepIdle, x)] = None /\ value o [(KeepIntvl, x)] = None /\ value o [(KeepCnt, x)] = None).
  { intros o Ho x. destruct o; cbn; auto; destruct Ho; cbn; auto. }
  unfold bind at 1 in H. destruct (setopt_value fate (s_fd s) KeepIdle idle k Hr H0) as (b1 & k1 & E1 & F1 & P1 & V1). rewrite E1 in H.
  destruct b1; cbn [negb] in H.
  2:{ inversion H; subst. specialize (P1 eq_refl). split; [lia|]. split; [intros _; split; [lia | apply V1]|]. intros o Ho. apply V1. }
  unfold bind at 1 in H. destruct (setopt_value fate (s_fd s) KeepIntvl intvl k1 Hr F1) as (b2 & k2 & E2 & F2 & P2 & V2). rewrite E2 in H.
  destruct b2; cbn [negb] in H.
  2:{ inversion H; subst. specialize (P2 eq_refl). split; [lia|]. split; [intros _; split; [lia | rewrite V2, V1; reflexivity]|].
      intros o Ho. rewrite V2, V1. now rewrite (proj1 (L o Ho idle)). }
  unfold bind at 1 in H. destruct (setopt_value fate (s_fd s) KeepCnt cnt k2 Hr F2) as (b3 & k3 & E3 & F3 & P3 & V3). rewrite E3 in H.
  destruct b3; cbn [negb] in H.
  2:{ inversion H; subst. specialize (P3 eq_refl). split; [lia|]. split; [intros _; split; [lia | rewrite V3, V2, V1; reflexivity]|].
      intros o Ho. rewrite V3, V2, V1. now rewrite (proj1 (L o Ho idle)), (proj1 (proj2 (L o Ho intvl))). }
  destruct (set_one fate (s_fd s) KeepAlive 1 k3 Hr F3) as (A & B & C). rewrite H in A, B, C. cbn in A, B, C.
  split; [|split].
  - intros E. split; [apply A, E|]. intros _. rewrite !C by discriminate. rewrite !V3, !V2, !V1. auto.
  - intros E. destruct (B E) as [B1 B2]. split; [exact B1|]. rewrite B2, V3, V2, V1. reflexivity.
  - intros o Ho. rewrite C by (intros ->; apply Ho; cbn; auto). rewrite V3, V2, V1.
    now rewrite (proj1 (L o Ho idle)), (proj1 (proj2 (L o Ho intvl))), (proj2 (proj2 (L o Ho cnt))).
Qed.
(** In every history an IPv6 socket, also an accepted one, serves IPv6 only. *)
Theorem res_ipv6_sockets_are_ipv6_only fate w fd d : real fate -> reach fate orderly w -> In (fd, d) (opened (kern w)) ->
  d_kind d = KSocket -> d_domain d = INET6 -> option_of (kern w) fd V6Only = Some 1%Z.
Proof.
  intros Hr R Hin K D. destruct (reach_invariant fate Hr w R) as [((S & _) & F) _ _ _]. rewrite Forall_forall in F. specialize (F _ Hin).
  destruct F as (_ & _ & C). unfold option_of.
  assert (E : find_fd fd (opened (kern w)) = Some d).
  { unfold fds in S. clear - S Hin. induction (opened (kern w)) as [|(n, x) l IH]; [destruct Hin|]. cbn in *. inversion S; subst.
    destruct Hin as [E|Hin]; [inversion E; subst; now rewrite Nat.eqb_refl|].
    destruct (Nat.eqb_spec n fd) as [->|]; [|auto]. destruct H1. apply in_map_iff. now exists (fd, d). }
  rewrite E. apply C; assumption.
Qed.
Example ipv6_history : exists fd d, In (fd, d) (opened (kern (run (fails [9]) (firstn 8 small_history) start))) /\
  d_kind d = KSocket /\ d_domain d = INET6.
Proof.
  exists 9, (Desc KSocket true true INET6 [(ReuseAddr, 1%Z); (V6Only, 1%Z)]). split; [vm_compute; auto 10 | auto].
Qed.
